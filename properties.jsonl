{"id": "C01", "title": "EKF covariance stays symmetric positive semi-definite", "statement": "Starting from a symmetric PSD estimate covariance and process noise, after any sequence of EKF predictions over non-negative intervals and corrections with measurements whose covariance matrices are symmetric PSD, the reported estimate error covariance is symmetric PSD (real arithmetic), whatever matrix the inversion routine returns.", "quantifier": "all 15-state EKF histories: any interleaving of predict/correct, any states, any update vectors, any number of steps, any gain matrix", "why_tests_cant": "PSD-ness is an invariant over unbounded histories of real matrices; a finite test suite sees finitely many matrices.", "anchors": ["src/ekf.cpp:Ekf::predict", "src/ekf.cpp:Ekf::correct", "src/filter_base.cpp:FilterBase::computeDynamicProcessNoiseCovariance"]}
{"id": "C02", "title": "Non-finite and unselected measurement entries have no influence on a correction", "statement": "Once the filter is initialised, the result of correcting with a measurement does not depend on the value of any entry that is NaN/infinite or whose update flag is false, nor on any covariance cell in the row or column of such an entry. If no entry is usable the correction does not change the covariance and only normalises the angles.", "quantifier": "all filter states, all measurement vectors, covariances and update vectors, any scalar arithmetic (so also IEEE doubles)", "why_tests_cant": "It is a non-interference property over pairs of runs with arbitrary values in the ignored cells.", "anchors": ["src/ekf.cpp:Ekf::correct", "src/ukf.cpp:Ukf::correct"]}
{"id": "C03", "title": "Outlier gate: all-or-nothing", "statement": "A correction whose squared Mahalanobis distance (innovation against innovation covariance) is at least the square of the rejection threshold leaves the state estimate and the covariance exactly unchanged; one strictly below is applied in full. Scaling the threshold up never turns an accepted measurement into a rejected one.", "quantifier": "all states, covariances, measurements and thresholds", "why_tests_cant": "Rejection must be total for every innovation; tests sample a few thresholds.", "anchors": ["src/filter_base.cpp:FilterBase::checkMahalanobisThreshold", "src/ekf.cpp:Ekf::correct", "src/ukf.cpp:Ukf::correct"]}
{"id": "C04", "title": "Orientation estimates are always normalised", "statement": "After every prediction and every accepted correction (EKF and UKF) roll, pitch and yaw of the estimate lie in (-pi, pi] and differ from the unnormalised value by a multiple of 2*pi; normalising is idempotent.", "quantifier": "all states, inputs and histories (real arithmetic)", "why_tests_cant": "Range claim over all reals, including arbitrarily many turns.", "anchors": ["src/filter_base.cpp:FilterBase::wrapStateAngles", "src/ekf.cpp:Ekf::predict", "src/ekf.cpp:Ekf::correct", "src/ukf.cpp:Ukf::predict"]}
{"id": "C05", "title": "Measurement processing advances filter time to the newest stamp and predicts exactly over the gap", "statement": "For an initialised filter, processing a measurement stamped t performs a prediction iff t is strictly later than the last measurement time, over exactly the difference, and then a correction in every case; the last measurement time becomes max(old, t), hence never decreases over any sequence of measurements.", "quantifier": "all filter states, all sequences of measurements in any stamp order", "why_tests_cant": "Monotonicity and the exact predict interval must hold for every arrival order.", "anchors": ["src/filter_base.cpp:FilterBase::processMeasurement"]}
{"id": "C06", "title": "First measurement initialises exactly the selected variables", "statement": "On an uninitialised filter the first measurement copies its value into precisely the selected state variables and its covariance cells for pairs of selected variables, leaves every other state entry and covariance cell as configured, marks the filter initialised and adopts the measurement stamp. Unlike later corrections it does not exclude NaN/inf entries nor repair negative variances.", "quantifier": "all measurements, update vectors and initial states; any scalar arithmetic", "why_tests_cant": "Frame condition over all 225 cells and all flag patterns; the missing NaN check needs a universally quantified comparison with the correction path.", "anchors": ["src/filter_base.cpp:FilterBase::processMeasurement"]}
{"id": "C07", "title": "EKF prediction implements omnidirectional rigid-body kinematics", "statement": "The predicted position is p + R(roll,pitch,yaw)(v dt + a dt^2/2) with R the Z-Y-X rotation matrix, orientation follows the Euler-rate kinematics, velocity gains a dt, angular velocity and acceleration are kept (before control); a zero interval leaves the state unchanged up to angle normalisation.", "quantifier": "all states with cos(pitch) non-zero, all intervals", "why_tests_cant": "Functional equality of 15 trigonometric expressions over all reals.", "anchors": ["src/ekf.cpp:Ekf::predict"]}
{"id": "C08", "title": "EKF transfer-function Jacobian is the true derivative", "statement": "Every one of the 225 entries of the matrix used to propagate the covariance equals the partial derivative of the predicted (uncontrolled, unnormalised) state with respect to the corresponding state variable.", "quantifier": "all states with cos(pitch) non-zero, all intervals, all 225 entries", "why_tests_cant": "A derivative identity over all reals cannot be established by numeric differencing at sample points.", "anchors": ["src/ekf.cpp:Ekf::predict"]}
{"id": "C09", "title": "Control acceleration is bounded and directed toward the set point", "statement": "For non-negative limits and gains the acceleration computed from a control input never exceeds the applicable acceleration/deceleration limit in magnitude, is zero when the state equals the command, and never points away from the commanded value; unselected control axes produce zero acceleration; a timed-out control is treated as a command of zero.", "quantifier": "all states, commands, limits, gains, times", "why_tests_cant": "Inequality over all reals and both branches of the accelerate/decelerate decision.", "anchors": ["src/filter_base.cpp:FilterBase::computeControlAcceleration", "src/filter_base.cpp:FilterBase::prepareControl"]}
{"id": "C10", "title": "Control axes that are not selected leave the prediction untouched", "statement": "With control disabled, or for an axis not selected in the control configuration, the predicted state is the one obtained without control in that axis; with the default control timeout of zero every command is already expired when it is used, so control then always decelerates toward zero.", "quantifier": "all states, commands and control configurations", "why_tests_cant": "Quantifies over all configurations and times.", "anchors": ["src/ekf.cpp:Ekf::predict", "src/filter_base.cpp:FilterBase::prepareControl", "src/ros_filter.cpp:RosFilter::loadParams"]}
{"id": "C11", "title": "Dynamic process noise scales only the pose block and stops growth at rest", "statement": "With dynamic process noise the pose block of the noise is the configured one times the squared norm of the velocity and other cells are unchanged; it is zero at rest; for block-diagonal PSD noise the result is PSD. It need not be PSD when pose/velocity cross terms are configured.", "quantifier": "all states and process noise matrices", "why_tests_cant": "Matrix inequality over all vectors.", "anchors": ["src/filter_base.cpp:FilterBase::computeDynamicProcessNoiseCovariance"]}
{"id": "C12", "title": "A correction never increases uncertainty", "statement": "With exact inversion of a nonsingular innovation covariance, the EKF posterior covariance equals P - K H P, and is no larger than the prior in the Loewner order (variance along every direction does not grow); the correction equals the textbook Kalman update on the selected variables.", "quantifier": "all PSD priors, all selected subsets, all PSD measurement covariances", "why_tests_cant": "Matrix inequality over all directions and matrices.", "anchors": ["src/ekf.cpp:Ekf::correct"]}
{"id": "C13", "title": "Measurement variance repair", "statement": "The measurement noise used in an EKF/UKF correction has diagonal max(|r|,1e-9) for each selected variable and unchanged off-diagonal cells; so it is the input itself when every selected variance is at least 1e-9, and for PSD inputs it stays PSD. With a negative variance and a cross term it may be indefinite.", "quantifier": "all measurement covariances and update vectors", "why_tests_cant": "Matrix property over all inputs.", "anchors": ["src/ekf.cpp:Ekf::correct", "src/ukf.cpp:Ukf::correct"]}
{"id": "C14", "title": "UKF sigma points carry the exact mean and covariance", "statement": "The UKF state weights sum to one for all alpha, kappa with alpha^2(15+kappa) non-zero; the weighted mean of generated sigma points is the state and their weighted scatter is the covariance whenever the Cholesky factor squares to the scaled covariance.", "quantifier": "all alpha, beta, kappa, states, covariances", "why_tests_cant": "Algebraic identity over all parameters and matrices.", "anchors": ["src/ukf.cpp:Ukf::setConstants", "src/ukf.cpp:Ukf::generateSigmaPoints"]}
{"id": "C15", "title": "UKF correction without an intervening prediction uses stale sigma points", "statement": "The UKF correction uses the sigma points of the last prediction when it is the first correction since that prediction, and regenerates them from the current estimate for later corrections. It therefore ignores any state or covariance set from outside (set_pose, reset, history reversion, first measurement) until the next prediction.", "quantifier": "all sequences of set-state, predict and correct calls", "why_tests_cant": "History-dependence over arbitrary call sequences.", "anchors": ["src/ukf.cpp:Ukf::correct", "src/ukf.cpp:Ukf::predict", "src/ros_filter.cpp:RosFilter::setPoseCallback", "src/ros_filter.cpp:RosFilter::revertTo"]}
{"id": "C16", "title": "UKF cross-covariance angle handling", "statement": "For a correction on selected variables the UKF normalises differences of angle variables in measurement space; in the cross-covariance it normalises the state difference at the measurement's subset position rather than at the state variable, so a correct yaw cross-covariance is only obtained when subset position and state index coincide or no wrap occurs.", "quantifier": "all sigma-point sets and update vectors", "why_tests_cant": "Requires comparing with the intended formula for all inputs.", "anchors": ["src/ukf.cpp:Ukf::correct"]}
{"id": "C17", "title": "UKF covariance update versus the Kalman update", "statement": "The UKF posterior covariance is P - K P_zz K^T with P_zz excluding measurement noise; it equals the optimal posterior plus K R K^T, so it is never below the optimal one and, with exact inversion, still PSD and not above the prior.", "quantifier": "all sigma-point sets, noise matrices and gains", "why_tests_cant": "Matrix inequalities.", "anchors": ["src/ukf.cpp:Ukf::correct"]}
{"id": "C18", "title": "UKF prediction ignores control input", "statement": "The state and covariance produced by a UKF prediction do not depend on control commands, limits or gains.", "quantifier": "all UKF states, all pairs of control configurations", "why_tests_cant": "Non-interference over pairs of runs.", "anchors": ["src/ukf.cpp:Ukf::predict", "src/ukf.cpp:Ukf::projectSigmaPoint"]}
{"id": "C19", "title": "EKF and UKF share the motion model", "statement": "Projecting a sigma point in the UKF yields exactly the EKF's uncontrolled prediction from the same state vector (before normalisation).", "quantifier": "all states and intervals", "why_tests_cant": "Equality of two independently written trigonometric code paths over all inputs.", "anchors": ["src/ekf.cpp:Ekf::predict", "src/ukf.cpp:Ukf::projectSigmaPoint"]}
{"id": "C20", "title": "Two-D mode keeps the estimate in the plane", "statement": "In two_d_mode with the EKF, if the initial state is planar and initial covariance, process noise and measurement covariances have no cross terms between planar and out-of-plane variables, then z, roll, pitch, vz, vroll, vpitch and az are exactly zero and the cross-covariances stay zero after every sequence of predictions and corrections. The unconditional claim fails: forcing two-D zeroes the out-of-plane values and sets their variances to 1e-6 but keeps cross-covariances, so the noise matrix may be indefinite and the state may leave the plane.", "quantifier": "all histories of predictions and two-D-forced measurements", "why_tests_cant": "Invariant over unbounded histories with matrix inverse.", "anchors": ["src/ros_filter.cpp:RosFilter::forceTwoD", "src/ekf.cpp:Ekf::predict", "src/ekf.cpp:Ekf::correct"]}
{"id": "C21", "title": "State buffer is time-ordered and bounded", "statement": "After any sequence of setState, setBufferCapacity and clearBuffer calls the buffered states are in non-decreasing time order and never more numerous than the current capacity.", "quantifier": "all operation sequences, all capacities", "why_tests_cant": "Invariant over unbounded operation histories.", "anchors": ["src/robot_localization_estimator.cpp:RobotLocalizationEstimator::setState", "src/robot_localization_estimator.cpp:RobotLocalizationEstimator::setBufferCapacity"]}
{"id": "C22", "title": "Which states the buffer retains", "statement": "A state newer than all buffered ones is always stored (capacity > 0), evicting the oldest when full; a state with the newest stamp is silently dropped; an older state is inserted after all states with stamp <= its own, evicting the oldest when full unless it is itself older than all, in which case it is dropped. Feeding strictly increasing stamps keeps exactly the latest `capacity` states. Shrinking the capacity keeps the oldest states, not the newest.", "quantifier": "all buffers and states, all increasing input sequences", "why_tests_cant": "Functional characterisation over all buffers.", "anchors": ["src/robot_localization_estimator.cpp:RobotLocalizationEstimator::setState", "src/robot_localization_estimator.cpp:RobotLocalizationEstimator::setBufferCapacity"]}
{"id": "C23", "title": "State query classification", "statement": "getState returns EmptyBuffer iff nothing is buffered; Exact iff some buffered state carries the requested stamp and then returns it verbatim; ExtrapolationIntoPast iff the request precedes all; ExtrapolationIntoFuture iff it follows all; Interpolation otherwise; exactly one code applies.", "quantifier": "all reachable buffers and all query times", "why_tests_cant": "Trichotomy over all buffers and times.", "anchors": ["src/robot_localization_estimator.cpp:RobotLocalizationEstimator::getState"]}
{"id": "C24", "title": "State query anchors on the right neighbour and has no side effects", "statement": "A non-exact query predicts from the latest buffered state before the request (or the oldest one when all are later) over exactly the time difference; queries never change the buffer and their results do not depend on earlier queries.", "quantifier": "all buffers, all sequences of queries", "why_tests_cant": "History independence over arbitrary query sequences, including residual state inside the embedded filter.", "anchors": ["src/robot_localization_estimator.cpp:RobotLocalizationEstimator::getState", "src/robot_localization_estimator.cpp:RobotLocalizationEstimator::extrapolate", "src/robot_localization_estimator.cpp:RobotLocalizationEstimator::interpolate"]}
{"id": "C25", "title": "Covariance of extrapolated states", "statement": "For requests after the anchoring state the returned covariance is symmetric PSD whenever the anchor and process noise are; for requests before all buffered states process noise is subtracted, and the returned covariance can be indefinite.", "quantifier": "all buffers and query times", "why_tests_cant": "Matrix property over all times.", "anchors": ["src/robot_localization_estimator.cpp:RobotLocalizationEstimator::extrapolate", "src/ekf.cpp:Ekf::predict"]}
{"id": "C26", "title": "Future measurements are never fused early", "statement": "Whatever the arrival order, every measurement handed to the filter in an update cycle is stamped no later than the cycle's current time; later ones stay queued.", "quantifier": "all arrival orders, queue contents, tie-break orders, clock values", "why_tests_cant": "Scheduling property over all interleavings of callbacks and update cycles.", "anchors": ["src/ros_filter.cpp:RosFilter::integrateMeasurements"]}
{"id": "C27", "title": "Measurements are fused in stamp order, each exactly once", "statement": "Within a cycle measurements are processed in non-decreasing stamp order; without smoothing, the measurements fused over a run together with those still queued are exactly those enqueued (no loss, no duplication), unless an explicit reset, set_pose or disabled-toggle discards the queue.", "quantifier": "all schedules of callbacks and cycles, all tie-breaks", "why_tests_cant": "Multiset conservation over unbounded schedules.", "anchors": ["src/ros_filter.cpp:RosFilter::integrateMeasurements", "src/ros_filter.cpp:RosFilter::enqueueMeasurement"]}
{"id": "C28", "title": "Out-of-order smoothing equals in-order processing", "statement": "With smooth_lagged_data, sufficient history, distinct stamps, no control and a stateless-between-corrections filter, after an update cycle the filter estimate equals the one obtained by processing all measurements received so far in stamp order, whatever their arrival order.", "quantifier": "all arrival orders and cycle boundaries", "why_tests_cant": "Refinement over all schedules.", "anchors": ["src/ros_filter.cpp:RosFilter::integrateMeasurements", "src/ros_filter.cpp:RosFilter::revertTo", "src/ros_filter.cpp:RosFilter::saveFilterState", "src/ros_filter.cpp:RosFilter::clearExpiredHistory"]}
{"id": "C29", "title": "Reverting restores an exact earlier snapshot", "statement": "Reverting to time t with history present puts the filter into the newest snapshot not later than t and returns success, or, when every snapshot is later, into the oldest one and returns failure; snapshots after t are discarded; queued again are exactly those recorded measurements later than t and not earlier than the chosen snapshot. With empty history nothing changes.", "quantifier": "all histories and times", "why_tests_cant": "Functional characterisation over all histories.", "anchors": ["src/ros_filter.cpp:RosFilter::revertTo"]}
{"id": "C30", "title": "History reversion with insufficient history double-counts", "statement": "When the oldest snapshot is later than the lagged measurement, a measurement stamped exactly like that snapshot, already contained in it, is fused a second time.", "quantifier": "existence of an execution; and absence of double counting in all executions with sufficient history", "why_tests_cant": "Needs an execution through the boundary case of two comparisons.", "anchors": ["src/ros_filter.cpp:RosFilter::revertTo"]}
{"id": "C31", "title": "History retention is exactly the configured window", "statement": "After each update cycle with smoothing, the recorded states and measurements are time-ordered, none is older than the last measurement time minus history_length, and no entry inside the window has been removed by expiry; without smoothing the history is always empty.", "quantifier": "all executions", "why_tests_cant": "Invariant over unbounded executions.", "anchors": ["src/ros_filter.cpp:RosFilter::clearExpiredHistory", "src/ros_filter.cpp:RosFilter::integrateMeasurements"]}
{"id": "C32", "title": "The filter never predicts backwards", "statement": "If the clock never goes backwards between update cycles and stamps are handled by the node's own rules, every prediction the node requests covers a non-negative interval. With a clock that jumps backwards a negative prediction interval is possible.", "quantifier": "all executions with monotone clock", "why_tests_cant": "Invariant relating the last measurement time to the clock over all executions.", "anchors": ["src/ros_filter.cpp:RosFilter::integrateMeasurements", "src/filter_base.cpp:FilterBase::processMeasurement"]}
{"id": "C33", "title": "Sensor timeout behaviour", "statement": "With no pending measurements an initialised filter is projected to the current time iff the time since the last measurement is at least sensor_timeout or prediction to current time is configured; otherwise the estimate is untouched. An uninitialised filter is never projected.", "quantifier": "all node states and clock values", "why_tests_cant": "Decision table over all times.", "anchors": ["src/ros_filter.cpp:RosFilter::integrateMeasurements"]}
{"id": "C34", "title": "Per-topic and set-pose stale message rejection", "statement": "A message whose stamp is not after the last set_pose stamp, or is older than the last accepted message of the same stream, changes nothing but diagnostics; after a set_pose stamped s, no measurement stamped <= s influences the estimate until the next reset or set_pose.", "quantifier": "all interleavings of callbacks, set_pose and cycles", "why_tests_cant": "Barrier property over all schedules.", "anchors": ["src/ros_filter.cpp:RosFilter::poseCallback", "src/ros_filter.cpp:RosFilter::odometryCallback", "src/ros_filter.cpp:RosFilter::twistCallback", "src/ros_filter.cpp:RosFilter::imuCallback", "src/ros_filter.cpp:RosFilter::accelerationCallback", "src/ros_filter.cpp:RosFilter::setPoseCallback"]}
{"id": "C35", "title": "Publication gating", "statement": "Nothing is published before the filter is initialised or while disabled. Otherwise each cycle publishes at most one odometry message, carrying the filter's current state and last measurement time, iff corrected publication is permitted or the stamp is newer than that of the previous cycle.", "quantifier": "all executions", "why_tests_cant": "Quantifies over all node states.", "anchors": ["src/ros_filter.cpp:RosFilter::periodicUpdate", "src/ros_filter.cpp:RosFilter::getFilteredOdometryMessage"]}
{"id": "C36", "title": "Published stamps strictly increase without corrected publication", "statement": "With permit_corrected_publication false and no smoothing, under a monotone clock, published odometry stamps are strictly increasing between resets. With smoothing the claim is false: a suppressed correction lowers the remembered stamp and a later cycle publishes an older stamp.", "quantifier": "all executions; existence of a violating execution with smoothing", "why_tests_cant": "Trace property over unbounded executions.", "anchors": ["src/ros_filter.cpp:RosFilter::periodicUpdate"]}
{"id": "C37", "title": "Non-finite output is still published", "statement": "A non-finite state is detected and logged but published regardless; starting from a first measurement with a NaN in a selected variable a message containing NaN is published.", "quantifier": "existence of an execution (IEEE arithmetic)", "why_tests_cant": "Requires the composition of initialisation, validation and publication.", "anchors": ["src/ros_filter.cpp:RosFilter::validateFilterOutput", "src/ros_filter.cpp:RosFilter::periodicUpdate"]}
{"id": "C38", "title": "Toggle service", "statement": "Requesting a state different from the current one switches and reports success, requesting the same changes nothing and reports failure. While toggled off every cycle discards queued measurements, leaves the estimate untouched and moves the last measurement time to the current time.", "quantifier": "all request sequences and node states", "why_tests_cant": "State-machine property over all sequences.", "anchors": ["src/ros_filter.cpp:RosFilter::toggleFilterProcessingCallback", "src/ros_filter.cpp:RosFilter::periodicUpdate"]}
{"id": "C39", "title": "Enable service and startup-disabled mode", "statement": "A node disabled at startup neither fuses nor publishes until enabled; the enable request always answers as documented and is idempotent; messages received meanwhile remain queued and are fused after enabling.", "quantifier": "all schedules", "why_tests_cant": "Liveness/safety over schedules.", "anchors": ["src/ros_filter.cpp:RosFilter::enableFilterSrvCallback", "src/ros_filter.cpp:RosFilter::periodicUpdate"]}
{"id": "C40", "title": "Reset", "statement": "A reset empties the measurement queue, the history and per-stream state, forgets stamps and marks the filter uninitialised with zero state and the loaded initial covariance and process noise. If those covariances were not configured, reset installs zero matrices instead of the built-in defaults the node started with.", "quantifier": "all node states", "why_tests_cant": "Equality of the post-reset state for all pre-states.", "anchors": ["src/ros_filter.cpp:RosFilter::reset", "src/filter_base.cpp:FilterBase::reset", "src/ros_filter.cpp:RosFilter::loadParams"]}
{"id": "C41", "title": "Set pose", "statement": "set_pose sets pose variables of the state to the transformed pose, zeroes velocities and accelerations, sets the pose block of the covariance to the message's covariance and 1e-6 on the remaining diagonal, and empties queue and history; when the pose cannot be transformed the state silently becomes zero.", "quantifier": "all node states and messages", "why_tests_cant": "Functional equality over all states, plus failure path.", "anchors": ["src/ros_filter.cpp:RosFilter::setPoseCallback"]}
{"id": "C42", "title": "Published odometry faithfully represents the estimate", "statement": "In the odometry message position, orientation, velocities and the 72 covariance cells are those of the filter state (pose block rows 0-5, twist block rows 6-11, row-major); the orientation quaternion is unit and its roll/pitch/yaw recover the state's angles for |pitch| < pi/2.", "quantifier": "all filter states", "why_tests_cant": "Equality of trigonometric expressions over all reals.", "anchors": ["src/ros_filter.cpp:RosFilter::getFilteredOdometryMessage", "src/ros_filter.cpp:RosFilter::getFilteredAccelMessage"]}
{"id": "C43", "title": "Broadcast map->odom transform is consistent", "statement": "When the world frame is the map frame, composing the broadcast map->odom transform with the current odom->base_link transform gives the published map->base_link pose.", "quantifier": "all poses and odom->base_link transforms", "why_tests_cant": "Rigid-body algebra over all rotations.", "anchors": ["src/ros_filter.cpp:RosFilter::periodicUpdate"]}
{"id": "C44", "title": "Diagnostics report the worst level once", "statement": "The aggregated diagnostic level is the maximum over all messages since the last aggregation plus the static ones; dynamic messages are cleared by aggregation and static ones persist.", "quantifier": "all sequences of diagnostic events", "why_tests_cant": "Fold property over arbitrary sequences.", "anchors": ["src/ros_filter.cpp:RosFilter::addDiagnostic", "src/ros_filter.cpp:RosFilter::aggregateDiagnostics"]}
{"id": "C45", "title": "Sensor configuration masks", "statement": "Each subscription can update only the variables meaningful for its message part: pose parts never velocity, twist parts never pose, IMU parts only orientation / angular velocity / acceleration respectively, pose sensors never acceleration, whatever the configured vector; differential wins over relative. The masks of odometry pose, odometry twist and twist sensors however keep the acceleration flags, so such a subscription can update accelerations its messages do not carry.", "quantifier": "all configuration vectors of 15 flags", "why_tests_cant": "All 2^15 configurations and all sensor kinds.", "anchors": ["src/ros_filter.cpp:RosFilter::loadParams", "src/ros_filter.cpp:RosFilter::loadUpdateConfig"]}
{"id": "C46", "title": "Malformed configuration arrays", "statement": "Loading stays within array bounds exactly when odometry configurations have at least 12 flags, pose and IMU ones at least 15, twist ones at least 6 (12 if a velocity or later flag is set), the control configuration at least 3 when control and an IMU are configured, and covariance parameters 15 or at least 225 entries; otherwise it reads out of range instead of reporting an error. Prediction with control then stays within bounds exactly when acceleration gains were given.", "quantifier": "all parameter lengths", "why_tests_cant": "Requires reasoning over all lengths and about undefined behaviour.", "anchors": ["src/ros_filter.cpp:RosFilter::loadParams", "src/ros_filter.cpp:RosFilter::loadUpdateConfig", "src/filter_base.cpp:FilterBase::prepareControl"]}
{"id": "C47", "title": "Unmeasured-variable diagnostics", "statement": "At start-up an error is reported for exactly those of the checked pose/velocity variables that no sensor measures. As coded the velocity-Y counter of odometry inputs counts velocity-X, so the report is wrong for some configurations.", "quantifier": "all sensor configurations", "why_tests_cant": "All configurations.", "anchors": ["src/ros_filter.cpp:RosFilter::loadParams"]}
{"id": "C48", "title": "Frame prefixing", "statement": "Prefixing a frame id yields prefix/frame, without doubled or leading separators; an empty prefix leaves the frame unchanged. As coded the configured tf_prefix is never applied to frames.", "quantifier": "all strings", "why_tests_cant": "All strings.", "anchors": ["include/robot_localization/filter_utilities.hpp:appendPrefix", "src/ros_filter.cpp:RosFilter::loadParams"]}
{"id": "C49", "title": "IMU parts declared absent are not fused", "statement": "An IMU orientation, angular velocity or acceleration whose first covariance entry is -1 (within 1e-9) is ignored, independently of the other two parts; the parts present are fused each under its own stream.", "quantifier": "all IMU messages and configurations", "why_tests_cant": "All messages.", "anchors": ["src/ros_filter.cpp:RosFilter::imuCallback"]}
{"id": "C50", "title": "Differential inputs become velocities", "statement": "In differential mode the first pose of a stream yields no measurement; every further one yields a velocity equal to the relative motion since the previous pose divided by elapsed time, and fuses no absolute pose.", "quantifier": "all pose sequences of a stream", "why_tests_cant": "Property over sequences.", "anchors": ["src/ros_filter.cpp:RosFilter::preparePose"]}
{"id": "C51", "title": "Relative inputs start at the origin", "statement": "In relative mode the first pose of a stream is measured as zero pose and later ones as the motion from the first, so relative measurements are unaffected by a constant rigid transformation of the source frame.", "quantifier": "all pose sequences, all rigid transformations", "why_tests_cant": "Invariance under a group action.", "anchors": ["src/ros_filter.cpp:RosFilter::preparePose"]}
{"id": "C52", "title": "Frame-aligned measurements pass through unchanged", "statement": "If the sensor frame coincides with the target frame, an ordinary pose, twist or acceleration measurement carries exactly the message values, the configured flags and the message covariance in the selected block.", "quantifier": "all messages with identity transform", "why_tests_cant": "All messages and flags.", "anchors": ["src/ros_filter.cpp:RosFilter::preparePose", "src/ros_filter.cpp:RosFilter::prepareTwist", "src/ros_filter.cpp:RosFilter::prepareAcceleration"]}
{"id": "C53", "title": "Covariance rotation preserves PSD", "statement": "Measurement covariances rotated into the target frame stay symmetric PSD, and rotation by the inverse restores the original.", "quantifier": "all covariance matrices and rotations", "why_tests_cant": "Matrix property over all rotations.", "anchors": ["src/ros_filter.cpp:RosFilter::preparePose", "src/ros_filter.cpp:RosFilter::prepareTwist", "src/ros_filter.cpp:RosFilter::prepareAcceleration"]}
{"id": "C54", "title": "Lever-arm compensation of twist and acceleration", "statement": "Transforming a twist (acceleration) from a sensor mounted at an offset equals the rigid-body velocity (acceleration) of the target origin for the filter's current angular velocity.", "quantifier": "all mounting transforms and rates", "why_tests_cant": "Vector identity over all inputs.", "anchors": ["src/ros_filter.cpp:RosFilter::prepareTwist", "src/ros_filter.cpp:RosFilter::prepareAcceleration"]}
{"id": "C55", "title": "Gravity removal", "statement": "For a robot at rest whose IMU is aligned with the base frame, gravity removal yields zero acceleration for every attitude. For an IMU mounted rotated the result is wrong: gravity is subtracted in the sensor frame from an acceleration already rotated to the base frame.", "quantifier": "all attitudes; existence of a failing mounting", "why_tests_cant": "All attitudes and mountings.", "anchors": ["src/ros_filter.cpp:RosFilter::prepareAcceleration"]}
{"id": "C56", "title": "Transform lookup fallback order", "statement": "A transform lookup returns the transform at the requested time if available, otherwise the latest one, otherwise identity when both frames are the same, otherwise reports failure; it never reports success with an unset transform.", "quantifier": "all transform buffers, frames, times", "why_tests_cant": "Decision table over an arbitrary external service.", "anchors": ["src/ros_filter_utilities.cpp:lookupTransformSafe"]}
{"id": "C57", "title": "Time unit of transform lookups", "statement": "Lookups for pose measurements and GPS odometry pass seconds where nanoseconds are expected, so the time asked for is (stamp in seconds) nanoseconds rather than the stamp, for every stamp of at least one second.", "quantifier": "all stamps", "why_tests_cant": "All stamps.", "anchors": ["src/ros_filter.cpp:RosFilter::preparePose", "src/navsat_transform.cpp:NavSatTransform::prepareGpsOdometry"]}
{"id": "C58", "title": "Lagged control replay", "statement": "When replaying after reversion each restored measurement should be predicted with the control active when it was first processed. As coded the restore counter is consumed by the newly arrived lagged measurements, so the last restored ones use the wrong control and the final control is not restored.", "quantifier": "all replays; existence of a violating one", "why_tests_cant": "Needs reasoning over replay schedules.", "anchors": ["src/ros_filter.cpp:RosFilter::integrateMeasurements", "src/ros_filter.cpp:RosFilter::revertTo"]}
{"id": "C59", "title": "Ancestor search and its cache", "statement": "For a fixed acyclic frame tree the ancestor query answers true iff the candidate is a reflexive-transitive parent, for any sequence of queries sharing the cache. If the tree changes, cached answers may be wrong.", "quantifier": "all acyclic trees and query sequences", "why_tests_cant": "Cache coherence over arbitrary query histories.", "anchors": ["src/ros_robot_localization_listener.cpp:findAncestor", "src/ros_robot_localization_listener.cpp:findAncestorRecursiveYAML"]}
{"id": "C60", "title": "Listener stamps are truncated to whole seconds", "statement": "States received by the listener are stored under the whole-second part of their stamp, so of several messages in the same second only the first is kept, and queries by ROS time are truncated likewise.", "quantifier": "all message sequences", "why_tests_cant": "Property over all stamp sequences.", "anchors": ["src/ros_robot_localization_listener.cpp:RosRobotLocalizationListener::odomAndAccelCallback", "src/ros_robot_localization_listener.cpp:RosRobotLocalizationListener::getState"]}
{"id": "C61", "title": "Listener query time conversion", "statement": "Converting the query time to integer nanoseconds is well defined only for times whose nanosecond count fits in a 32-bit int; for times of about 2.15 s and more behaviour is undefined.", "quantifier": "all query times", "why_tests_cant": "Undefined behaviour is invisible to tests that happen to work on one platform.", "anchors": ["src/ros_robot_localization_listener.cpp:RosRobotLocalizationListener::getState", "include/robot_localization/filter_utilities.hpp:secToNanosec"]}
{"id": "C62", "title": "Listener result is a rigid-body transformation of the estimate", "statement": "Querying in the base and world frames of the estimator returns pose and twist of the estimated state unchanged; for another frame rigidly attached at an offset the twist satisfies rigid-body kinematics and rotation preserves speed.", "quantifier": "all states and frames", "why_tests_cant": "Vector identities over all inputs.", "anchors": ["src/ros_robot_localization_listener.cpp:RosRobotLocalizationListener::getState"]}
{"id": "C63", "title": "Datum maps to the configured world pose", "statement": "After the transform is computed, the world-frame image of the datum's (robot-origin corrected) cartesian position is the odometry position recorded with it; with a manual datum it is the origin.", "quantifier": "all datums, orientations, odometry poses, declinations and offsets", "why_tests_cant": "Rigid-body algebra over all inputs.", "anchors": ["src/navsat_transform.cpp:NavSatTransform::computeTransform", "src/navsat_transform.cpp:NavSatTransform::cartesianToMap", "src/navsat_transform.cpp:NavSatTransform::setManualDatum"]}
{"id": "C64", "title": "Map/geographic round trip", "statement": "In UTM mode converting a latitude/longitude to the map and back returns it when the point lies in the datum's zone and hemisphere, given that the projection library is invertible there. In local-cartesian mode, and across the equator, the round trip fails because the inverse always uses UTM with the datum's hemisphere.", "quantifier": "all points and transforms", "why_tests_cant": "Round trip over all points; relies on algebra of transforms.", "anchors": ["src/navsat_transform.cpp:NavSatTransform::fromLL", "src/navsat_transform.cpp:NavSatTransform::mapToLL", "src/navsat_transform.cpp:NavSatTransform::cartesianToMap"]}
{"id": "C65", "title": "GPS odometry publication discipline", "statement": "GPS odometry is published only after the transform is established, requires both a valid new fix and a new odometry message, and publishes every fix at most once; fixes without a fix status or with NaN coordinates are never used.", "quantifier": "all interleavings of GPS, IMU, odometry messages and timer ticks", "why_tests_cant": "Safety over all interleavings.", "anchors": ["src/navsat_transform.cpp:NavSatTransform::prepareGpsOdometry", "src/navsat_transform.cpp:NavSatTransform::gpsFixCallback", "src/navsat_transform.cpp:NavSatTransform::transformCallback", "src/navsat_transform.cpp:NavSatTransform::odomCallback"]}
{"id": "C66", "title": "Antenna offset handling", "statement": "When the base_link->gps transform is known the published GPS odometry is the robot origin implied by the antenna position; when it is unknown the published position is the world origin (0,0,0) instead of the antenna position.", "quantifier": "all poses, offsets; existence of failing case", "why_tests_cant": "All transforms plus failure path.", "anchors": ["src/navsat_transform.cpp:NavSatTransform::getRobotOriginWorldPose", "src/navsat_transform.cpp:NavSatTransform::prepareGpsOdometry"]}
{"id": "C67", "title": "Local cartesian mode consistency", "statement": "Every GPS position fed to the world transform should be produced by the projection that produced the datum. As coded fixes are always projected with UTM (in the fix's own zone), so with use_local_cartesian, or across a zone boundary, the datum position no longer maps to the datum.", "quantifier": "all fixes; existence of violating configuration", "why_tests_cant": "All fixes and modes.", "anchors": ["src/navsat_transform.cpp:NavSatTransform::gpsFixCallback", "src/navsat_transform.cpp:NavSatTransform::setTransformGps"]}
{"id": "C68", "title": "Zero altitude", "statement": "With zero_altitude the GPS odometry has z exactly zero whatever the fix, datum and odometry, and the filtered fix has altitude zero.", "quantifier": "all inputs", "why_tests_cant": "All inputs.", "anchors": ["src/navsat_transform.cpp:NavSatTransform::prepareGpsOdometry", "src/navsat_transform.cpp:NavSatTransform::prepareFilteredGps"]}
{"id": "C69", "title": "Datum life cycle", "statement": "Before the transform is good, filtered fixes and from/to-LL requests do not use it; a datum or UTM-zone request makes the node recompute the transform, which then completes as soon as orientation, odometry and GPS (or datum) data are present; once good, it is never recomputed without such a request.", "quantifier": "all request/message interleavings", "why_tests_cant": "State machine over all interleavings.", "anchors": ["src/navsat_transform.cpp:NavSatTransform::computeTransform", "src/navsat_transform.cpp:NavSatTransform::datumCallback", "src/navsat_transform.cpp:NavSatTransform::setUTMZoneCallback"]}
{"id": "C70", "title": "UTM central meridian", "statement": "For every longitude in [-180,180] the central meridian chosen by the UTM conversion is within three degrees of the longitude and is the middle of a six-degree zone.", "quantifier": "all longitudes", "why_tests_cant": "All reals in range including boundaries and negatives.", "anchors": ["include/robot_localization/navsat_conversions.hpp:UTM"]}
{"id": "C71", "title": "Stream names are distinct", "statement": "The streams (per-message-part names under which stamps, previous poses, diagnostics and covariances are kept) of all loaded subscriptions are pairwise distinct, however many inputs of each kind are configured.", "quantifier": "all parameter sets", "why_tests_cant": "Any number of inputs of each kind.", "anchors": ["src/ros_filter.cpp:RosFilter::loadParams"]}
{"id": "C72", "title": "Control and measured accelerations", "statement": "After loading, control input drives exactly the configured axes for which no IMU input measures the corresponding linear acceleration; control is in use exactly when it is requested, its arrays have six entries and some axis remains.", "quantifier": "all parameter sets", "why_tests_cant": "All configurations and any number of IMUs.", "anchors": ["src/ros_filter.cpp:RosFilter::loadParams"]}
{"id": "C73", "title": "Listener reconstructs the filter", "statement": "From the odometry and acceleration messages of one cycle the listener stores exactly the fifteen state variables of the filter (angles in the principal ranges), its stamp cut to whole seconds, and its covariance without the correlations between pose, velocity and acceleration.", "quantifier": "all filters, configurations and cycles", "why_tests_cant": "All states; composition of two programs.", "anchors": ["src/ros_filter.cpp:RosFilter::getFilteredOdometryMessage", "src/ros_robot_localization_listener.cpp:RosRobotLocalizationListener::odomAndAccelCallback"]}
{"id": "C74", "title": "Angles of transformed listener answers", "statement": "The roll, pitch and yaw of a transformed answer always describe its orientation, also at gimbal lock, with yaw in [0, pi]; so a level frame with heading in (-pi, 0) is reported upside down with the opposite heading.", "quantifier": "all orientations", "why_tests_cant": "All rotations including singular ones.", "anchors": ["src/ros_robot_localization_listener.cpp:RosRobotLocalizationListener::getState"]}
{"id": "C75", "title": "Listener construction and empty buffers", "statement": "Constructing the listener reads out of bounds exactly when fewer than 225 process noise entries are given; with an invalid filter type every later message or query is undefined; with a zero buffer size queries for the base frame succeed with a zero state, against the documented result.", "quantifier": "all parameters and executions", "why_tests_cant": "All executions.", "anchors": ["src/ros_robot_localization_listener.cpp:RosRobotLocalizationListener::RosRobotLocalizationListener", "src/ros_robot_localization_listener.cpp:RosRobotLocalizationListener::getState"]}
{"id": "C76", "title": "Uninitialised members of the navsat node", "statement": "The messages and service answers of the navsat node never depend on the initial contents of members the constructor leaves unset, nor on the unset rotation used by fromLL.", "quantifier": "all event sequences and all initial memory contents", "why_tests_cant": "Uninitialised memory cannot be controlled by a test.", "anchors": ["src/navsat_transform.cpp:NavSatTransform::NavSatTransform", "src/navsat_transform.cpp:NavSatTransform::fromLLCallback"]}
{"id": "C77", "title": "Uncaught exceptions of the navsat node", "statement": "An event ends the node by an uncaught exception exactly when the projection library rejects: the position of a usable fix, the point of a fromLL request in UTM mode (even before a transform exists), the zone of a UTM-zone request, or the place of a toLL request or of the filtered fix.", "quantifier": "all events and states", "why_tests_cant": "All inputs rejected by the library, in every state.", "anchors": ["src/navsat_transform.cpp:NavSatTransform::gpsFixCallback", "src/navsat_transform.cpp:NavSatTransform::fromLLCallback", "src/navsat_transform.cpp:NavSatTransform::setUTMZoneCallback", "src/navsat_transform.cpp:NavSatTransform::mapToLL"]}
{"id": "C78", "title": "IMU forgotten after the first transform", "statement": "Once a transform has been computed with the heading of the IMU, IMU messages change nothing ever after: removing them from any later sequence of events, including datum and UTM-zone requests, gives the same final state and the same outputs, so recomputed transforms use the old heading.", "quantifier": "all executions", "why_tests_cant": "All later event sequences.", "anchors": ["src/navsat_transform.cpp:NavSatTransform::transformCallback", "src/navsat_transform.cpp:NavSatTransform::imuCallback"]}
{"id": "C79", "title": "Navsat covariances", "statement": "The covariance of published GPS odometry is that of the fix turned into the world frame and the covariance of the filtered fix is that of the odometry turned into the cartesian frame; both stay positive semi-definite.", "quantifier": "all executions", "why_tests_cant": "All rotations and covariances.", "anchors": ["src/navsat_transform.cpp:NavSatTransform::prepareGpsOdometry", "src/navsat_transform.cpp:NavSatTransform::prepareFilteredGps"]}
{"id": "C80", "title": "Broadcast cartesian transform", "statement": "The static transform is broadcast exactly in the cycle that completes the transform, with the configured frame order, a unit quaternion, and it moves every point as the transform used for the map does (its height offset removed with zero_altitude).", "quantifier": "all executions and points", "why_tests_cant": "All points and transforms.", "anchors": ["src/navsat_transform.cpp:NavSatTransform::computeTransform"]}
{"id": "C81", "title": "UTM series symmetry", "statement": "The UTM conversion gives mirror-image eastings and equal northings on both sides of a central meridian and easting 500000 on it; every point of the equator gets the southern false northing.", "quantifier": "all latitudes, zones and longitude differences below three degrees", "why_tests_cant": "All real inputs.", "anchors": ["include/robot_localization/navsat_conversions.hpp:UTM"]}
{"id": "C82", "title": "Heading through a UKF prediction", "statement": "A level vehicle that does not turn, with independent errors, keeps its heading through a prediction while the variance of the angle (plus that of its rate times the squared interval) is below 2 rad^2, and the variance grows as in a linear filter; with a variance above 2 the prediction turns the heading by pi, and with the default constants its variance becomes negative (refuted in general).", "quantifier": "all histories, intervals and constants", "why_tests_cant": "All variances and intervals, on both sides of the threshold.", "anchors": ["src/ukf.cpp:Ukf::predict", "src/ukf.cpp:Ukf::generateSigmaPoints"]}
{"id": "C83", "title": "Definiteness of the UKF prediction", "statement": "With alpha^2 <= beta the covariance after a prediction is positive semi-definite, with and without the process noise, whenever the weighted angular differences of the sigma points sum to zero, as they do for a level vehicle that does not turn and whose angle variances are small.", "quantifier": "all histories and intervals", "why_tests_cant": "All covariances and vectors.", "anchors": ["src/ukf.cpp:Ukf::predict", "src/ukf.cpp:Ukf::setConstants"]}
{"id": "C84", "title": "First UKF correction after a prediction", "statement": "The first correction after a prediction, without measured angles and with sigma points within half a turn of the state, gates and corrects as a Kalman filter for the predicted covariance without the process noise of that prediction and leaves the noise in the covariance; so its gain is smaller than the Kalman gain (refuted to be the Kalman gain).", "quantifier": "all histories, predictions and measurements", "why_tests_cant": "All measurements and covariances.", "anchors": ["src/ukf.cpp:Ukf::correct", "src/ukf.cpp:Ukf::predict"]}
{"id": "C85", "title": "Order of simultaneous corrections", "statement": "An accepted EKF correction by a measurement without angles adds H'R^-1H to the inverse of the covariance and H'R^-1z to the information vector, so any list of such measurements accepted in two orders gives the same state and covariance; the gate can make the order matter, and in the unscented filter the order matters even when all are accepted (both refuted in general).", "quantifier": "all lists of measurements, permutations and priors with positive definite covariance", "why_tests_cant": "All orders of all measurement lists.", "anchors": ["src/ekf.cpp:Ekf::correct", "src/ukf.cpp:Ukf::correct"]}
{"id": "C86", "title": "A started node", "statement": "A node whose parameters load starts unfused with an empty queue and history, enabled unless disabled_at_startup, with every option, limit, gain, initial state and diagonal covariance as configured or defaulted; started disabled it fuses and publishes nothing until enabled; a 225-entry covariance is read transposed, which matters only if it is not symmetric (reading by rows refuted).", "quantifier": "all parameter sets that load and all events before enabling", "why_tests_cant": "All combinations of parameters.", "anchors": ["src/ros_filter.cpp:RosFilter::loadParams", "src/ros_filter.cpp:RosFilter::initialize"]}
{"id": "C87", "title": "Accesses of update vectors", "statement": "When every configured update vector has 15 flags, no message, pose reset or fusion of any execution reads or writes an update vector, measurement, state or covariance out of range; vectors of other accepted lengths do lead to out-of-range accesses (refuted in general).", "quantifier": "all parameters with 15-flag vectors, transforms, messages and executions", "why_tests_cant": "Undefined behaviour may go unnoticed in a test; all executions are covered.", "anchors": ["src/ros_filter.cpp:RosFilter::preparePose", "src/ros_filter.cpp:RosFilter::prepareTwist", "src/ros_filter.cpp:RosFilter::prepareAcceleration", "src/filter_base.cpp:FilterBase::processMeasurement"]}
{"id": "C88", "title": "Reports about covariances", "statement": "A pose message of a non-differential stream that is queued gets a diagnostic report exactly when one of its used covariance entries exceeds 1000 or one of its used variances is not positive; of a velocity or acceleration stream of a loaded node only large entries are reported, so a used velocity with zero or negative variance goes unreported (refuted to be reported).", "quantifier": "all messages, transforms, update vectors and node states", "why_tests_cant": "All covariances.", "anchors": ["src/ros_filter.cpp:RosFilter::copyCovariance", "src/ros_filter.cpp:RosFilter::preparePose"]}
{"id": "C89", "title": "Velocity commands", "statement": "Without lagged replay every fusion runs with the last command given in the body frame or without a frame; a command in another frame changes nothing; a queued measurement carries the last command; a reset does not forget the command (refuted to forget it).", "quantifier": "all executions", "why_tests_cant": "All interleavings of commands, messages, resets and cycles.", "anchors": ["src/ros_filter.cpp:RosFilter::controlCallback", "src/ros_filter.cpp:RosFilter::controlStampedCallback", "src/ros_filter.cpp:RosFilter::reset"]}
{"id": "C90", "title": "UTM-zone requests", "statement": "After a UTM-zone request a transform is completed only with a fix received since; its datum is the last usable fix before the completion that projects into the requested zone, projected into that zone; a node that had a transform completes it at the next tick exactly when such a fix has come.", "quantifier": "all executions, fixes and zones", "why_tests_cant": "All interleavings of requests, fixes and ticks.", "anchors": ["src/navsat_transform.cpp:NavSatTransform::setUTMZoneCallback", "src/navsat_transform.cpp:NavSatTransform::setTransformGps", "src/navsat_transform.cpp:NavSatTransform::computeTransform"]}
{"id": "C91", "title": "The command nobody gave", "statement": "Before a first command the filter's command member is uninitialised memory; two nodes started alike with different contents of it send, queue and fuse the same as long as cycles and fused measurements are timed at or after control_timeout, or control is not used; at earlier times (a simulated clock near zero) the prediction depends on the memory (refuted in general).", "quantifier": "all executions, parameters and memory contents", "why_tests_cant": "Uninitialised memory is usually zero in a test.", "anchors": ["src/filter_base.cpp:FilterBase::FilterBase", "src/filter_base.cpp:FilterBase::prepareControl"]}
{"id": "C92", "title": "The get_state service", "statement": "The service responds with the state and, column by column, the covariance the listener answers; that is the documented row-major order whenever the covariances of messages and process noise are symmetric, for every execution and frame, and not otherwise (refuted in general); a failed query is answered with zeros, which a client cannot tell from a successful one (refuted).", "quantifier": "all executions, queries and matrices", "why_tests_cant": "All covariances and frames.", "anchors": ["src/robot_localization_listener_node.cpp:RobotLocalizationListenerNode::getStateCallback", "src/ros_robot_localization_listener.cpp:RosRobotLocalizationListener::getState"]}
{"id": "C93", "title": "Published covariances of a started node", "statement": "A node started with positive semi-definite covariance parameters (the initial one diagonal) publishes only positive semi-definite pose, twist and linear-acceleration covariances, whatever messages with such covariances, set_pose requests, resets, commands and cycles arrive; with a correlated initial covariance the first measurement can make the published covariance indefinite (refuted).", "quantifier": "all parameters, message sequences, transforms, tie-breaks and clocks that do not go backwards; EKF over exact reals, three dimensions", "why_tests_cant": "Unbounded executions through lagged replay, resets and set_pose; all covariances.", "anchors": ["src/ros_filter.cpp:RosFilter::periodicUpdate", "src/ros_filter.cpp:RosFilter::getFilteredOdometryMessage", "src/ros_filter.cpp:RosFilter::setPoseCallback", "src/ros_filter.cpp:RosFilter::preparePose", "src/ekf.cpp:Ekf::correct", "src/filter_base.cpp:FilterBase::processMeasurement"]}
{"id": "C94", "title": "Two-D mode of a started node", "statement": "A started EKF node in two_d_mode queues only measurements that measure z, roll, pitch and their rates and the vertical acceleration as zero with variance 1e-6; with transforms about the vertical, message covariances that keep the plane apart and treat roll and pitch alike, and no command of a vertical velocity, roll rate or pitch rate, its estimate and everything it publishes stays exactly in the plane, uncorrelated with the rest, with positive semi-definite covariances, from start-up on; a diagonal covariance with unequal roll and pitch variances seen by a turned sensor becomes indefinite (refuted), and a command of the vertical velocity leaves the plane (refuted).", "quantifier": "all parameters, messages, transforms, requests and clocks as described; the first part for every scalar type", "why_tests_cant": "Unbounded executions through lagged replay, differential and relative streams, resets and set_pose.", "anchors": ["src/ros_filter.cpp:RosFilter::forceTwoD", "src/ros_filter.cpp:RosFilter::preparePose", "src/ros_filter.cpp:RosFilter::prepareTwist", "src/ros_filter.cpp:RosFilter::prepareAcceleration", "src/ros_filter.cpp:RosFilter::periodicUpdate"]}
{"id": "C95", "title": "The choice of the origin", "statement": "Move the positions of all absolute pose topics and set_pose requests by one and the same distance in the world frame: a started EKF node then publishes poses and transforms moved by that distance and is otherwise identical in every output, provided each measurement that initialises the filter measures the moved axes; raw positions of differential and relative topics, and positions that are not fused, may be moved by any distance per topic without any change in what is published; before a position has been measured the published position does not move with the origin (refuted in general).", "quantifier": "all parameters, message sequences, transforms, rejections, requests and tie-breaks that depend on times only; EKF over exact reals", "why_tests_cant": "Relates two unbounded executions.", "anchors": ["src/ros_filter.cpp:RosFilter::preparePose", "src/ros_filter.cpp:RosFilter::periodicUpdate", "src/ros_filter.cpp:RosFilter::setPoseCallback", "src/ekf.cpp:Ekf::correct", "src/ekf.cpp:Ekf::predict", "src/filter_base.cpp:FilterBase::processMeasurement"]}
{"id": "C96", "title": "The choice of the origin for the UKF", "statement": "Move the positions of all absolute pose topics and set_pose requests by one and the same distance in the world frame: a started UKF node then publishes poses and transforms moved by that distance and is otherwise identical in every output, provided alpha^2 (15 + kappa) is non-zero, each measurement that initialises the filter measures the moved axes, and no correction is made with sigma points that were never generated.", "quantifier": "all parameters, message sequences, transforms, rejections, requests and tie-breaks that depend on times only; exact reals", "why_tests_cant": "Relates two unbounded executions through 31 sigma points.", "anchors": ["src/ros_filter.cpp:RosFilter::preparePose", "src/ros_filter.cpp:RosFilter::periodicUpdate", "src/ukf.cpp:Ukf::correct", "src/ukf.cpp:Ukf::predict", "src/ukf.cpp:Ukf::generateSigmaPoints", "src/filter_base.cpp:FilterBase::processMeasurement"]}
{"id": "C97", "title": "Where the times come from", "statement": "Every stamp a node publishes (transforms less transform_time_offset), every time it keeps in its filter, queue and histories and both ends of every interval it predicts over is the stamp of a sensor message received, or a clock reading taken, so far; with predict_to_current_time everything a cycle publishes is stamped with the cycle's first clock reading, with processing toggled off with its second; under a clock that does not go backwards nothing is stamped in the future, whatever the stamps received; and if all times received lie in [0, B] all predicted intervals lie in [-B, B], so that differences of non-negative nanosecond counts cannot overflow.", "quantifier": "all executions of a node with any filter that leaves time alone (EKF and UKF do), any queue tie-breaks, every scalar type", "why_tests_cant": "Unbounded executions through lagged replay, resets and set_pose.", "anchors": ["src/ros_filter.cpp:RosFilter::integrateMeasurements", "src/ros_filter.cpp:RosFilter::periodicUpdate", "src/ros_filter.cpp:RosFilter::revertTo", "src/ros_filter.cpp:RosFilter::setPoseCallback", "src/ros_filter.cpp:RosFilter::getFilteredOdometryMessage", "src/filter_base.cpp:FilterBase::processMeasurement"]}
{"id": "C98", "title": "The choice of the heading", "statement": "Two EKFs constructed alike see the same history of API calls, one in a world frame turned about the vertical by any angle: measurements of x and y together, of yaw and of the robot's own variables, predictions, controls, set states and covariances, resets.  If the process noise and the covariance before the first measurement treat the two horizontal directions alike, the first measurement measures the yaw (and x and y unless they are zero), the noise of the selected variables is positive definite and the variances of x and y are at least 1e-9, the estimates differ by that turn only: x, y, the yaw up to whole turns, and the rows and columns of x and y in the covariance; with process noise in x only they do not (refuted).", "quantifier": "all angles, histories, measurement subsets, gates and covariances as described; EKF over exact reals, inverse correct where one exists", "why_tests_cant": "Relates two unbounded executions; all angles.", "anchors": ["src/ekf.cpp:Ekf::correct", "src/ekf.cpp:Ekf::predict", "src/filter_base.cpp:FilterBase::processMeasurement", "src/filter_base.cpp:FilterBase::computeDynamicProcessNoiseCovariance"]}
{"id": "C99", "title": "Estimates do not depend on the choice of the epoch", "statement": "Two EKF (or UKF) nodes are started with the same parameters and receive the same messages, requests, commands and cycles, every stamp and clock reading T nanoseconds later for the second, and every transform looked up the same. Provided all stamps of messages and all clock readings are, before and after, at least some lo > 0 that is not less than the diagnostic period and the control timeout, the second node publishes exactly what the first publishes, with stamps T later, and fuses and predicts the same. The filter alone has the property in every arithmetic, floating point included. Near zero it fails: a message stamped zero is refused as older than the last set pose (refuted); and the uninitialised time of the last differentiation must be taken T later too, otherwise the first angular acceleration differs (refuted).", "quantifier": "all parameters, inputs, offsets T of either sign; all orders of equal stamps that a time-comparing queue may choose; nodes over exact reals, filters over every scalar arithmetic", "why_tests_cant": "Relates two unbounded executions with arbitrary offset of the clock.", "anchors": ["src/ros_filter.cpp:RosFilter::integrateMeasurements", "src/ros_filter.cpp:RosFilter::periodicUpdate", "src/ros_filter.cpp:RosFilter::preparePose", "src/ros_filter.cpp:RosFilter::differentiateMeasurements", "src/filter_base.cpp:FilterBase::processMeasurement", "src/filter_base.cpp:FilterBase::prepareControl"]}
{"id": "C100", "title": "A correction is the best estimate", "statement": "Let a measurement of any subset of the variables, angles included, have positive definite noise and the filter a positive definite covariance. If some state explains estimate and measurement together with a misfit (squared distance from the estimate weighted by the inverse covariance plus squared distance from the readings weighted by the inverse noise) below the squared rejection threshold, the corrected state is, up to whole turns of its angles, the one state with the least misfit; if no state does, the filter is left unchanged. State and covariance come from one gain, and no other gain would leave a smaller error covariance in any direction. A measurement whose noise falls into two independent parts may be fused at once or part by part with the same result when all are accepted; the gate sees the difference (refuted in general): both parts can be accepted where the whole, with the same threshold, is rejected.", "quantifier": "all states, covariances, measurement subsets, readings, noises, thresholds and competing gains; EKF over exact reals, inverse correct where one exists", "why_tests_cant": "Optimality over all states and all gains.", "anchors": ["src/ekf.cpp:Ekf::correct", "src/filter_base.cpp:FilterBase::checkMahalanobisThreshold"]}
{"id": "C101", "title": "Smaller covariances in, smaller covariances out", "statement": "Two filters accept sequences of measurements of the same variables; if the first starts with the smaller covariance and each of its measurements has no more noise, it ends with the smaller covariance (in every direction), whatever the states and readings. Predictions from one state over one interval keep the order of covariances and of process noises. n accepted measurements of one kind leave at most one n-th of the variance of a single one in every combination of the measured variables. Across the rejection threshold the first fails (refuted): declaring less noise can get a measurement rejected and leave a larger covariance.", "quantifier": "all sequences of measurements, subsets, states, readings, covariances and process noises; EKF over exact reals without dynamic process noise, inverse correct where one exists", "why_tests_cant": "Relates two unbounded sequences; all directions.", "anchors": ["src/ekf.cpp:Ekf::correct", "src/ekf.cpp:Ekf::predict", "src/filter_base.cpp:FilterBase::checkMahalanobisThreshold"]}
{"id": "C102", "title": "The constants of the UKF in a running node", "statement": "From the main program on, whatever messages, requests and cycles follow, the scaling and the weights of the UKF are those of the parameters alpha, kappa and beta (0.001, 0 and 2 when not given), in the node's filter and in every fusion, in every arithmetic. Over the reals, unless alpha^2 (15 + kappa) is zero, the state weights of every fusion add up to one with 1 - 15 / (alpha^2 (15 + kappa)) in the centre (-999999 by default) and the covariance weights to 2 - alpha^2 + beta. In double precision, when alpha^2 (15 + kappa) is lost beside 15, as for alpha below about 7e-9, every cycle that predicts reports non-finite output and every position, speed and rate it publishes is not a number or infinite; the program refuses no value (finite output for positive alpha refuted).", "quantifier": "all parameters and executions, any queue tie-breaks; the weights in every scalar arithmetic, the last part in primitive floats with any math library", "why_tests_cant": "Unbounded executions; all parameter values including those lost to rounding.", "anchors": ["src/ukf_node.cpp:main", "src/ukf.cpp:Ukf::setConstants", "src/ukf.cpp:Ukf::predict", "src/ros_filter.cpp:RosFilter::periodicUpdate"]}
{"id": "C103", "title": "UTM() is the transverse Mercator projection of WGS84", "statement": "On every central meridian and at every latitude the northing is 0.9996 times the length of the WGS84 meridian from the equator (plus the false northing) to a centimetre, and within a hemisphere it grows with the latitude, by between 6335 and 6400 km times 0.9996 per radian. At every longitude strictly inside a zone and every latitude between the poles, easting and northing are the series of the conformal map about the central meridian, whose coefficients are the iterated derivatives of the arc with respect to the isometric latitude; only the second and higher powers of the second eccentricity squared are missing from the fifth and sixth coefficient, which makes less than 0.3 mm. The southern hemisphere mirrors the northern one about 10000 km.", "quantifier": "all zones, latitudes and offsets from the central meridian; exact reals", "why_tests_cant": "Compares with integrals and derivatives over a continuum of latitudes.", "anchors": ["include/robot_localization/navsat_conversions.hpp:UTM"]}
{"id": "C104", "title": "A filter that is told the truth knows the truth", "statement": "Take a robot on a course: constant acceleration in its own frame without turning, or turning on the spot on level ground at a constant rate (C104_course shows that these are motions). If every measurement an EKF processes, of whichever variables, agrees with the course at its stamp (angles up to whole turns), measurements are processed in order, the first one leaves nothing unknown that is not already so, and no control is configured, then after any number of predictions, corrections, resets and changes of covariances the estimate is the course at the time of the estimate, whatever the covariances, the rejection thresholds and Eigen's inverse are. A started node that fuses such measurements, through delays, history, reverts, resets and set_pose requests, publishes position, attitude, velocities and acceleration that are exact at the stamp. For a robot that stands still measurements may also be late and processing may be suspended. For a moving one a late measurement, though true, moves the estimate away from the truth (refuted).", "quantifier": "all courses, covariances, thresholds, measurement subsets and histories; EKF over exact reals, any inverse, any queue tie-breaks", "why_tests_cant": "All trajectories and unbounded histories, whatever the gains.", "anchors": ["src/ekf.cpp:Ekf::correct", "src/ekf.cpp:Ekf::predict", "src/filter_base.cpp:FilterBase::processMeasurement", "src/ros_filter.cpp:RosFilter::integrateMeasurements", "src/ros_filter.cpp:RosFilter::periodicUpdate", "src/ros_filter.cpp:RosFilter::revertTo"]}
{"id": "C105", "title": "Settings stay as set", "statement": "After any history of calls, control following (timeout, axes, limits and gains when speeding up and slowing down), the command with its time, the sensor timeout, the choice of dynamic process noise, the process noise, whether the filter is initialised and its time are what the last call that gives them gave, or the initial values; predictions and corrections change none of them, a reset restores sensor timeout and process noise but not commands nor how they are followed. Setting the state or the covariance sets that and nothing else of the two. In a started node every measurement of every execution is fused by a filter with the settings it was started with, and with the same process noise if that was configured or no reset arrived.", "quantifier": "all histories of API calls of both filters and all executions of started nodes; any scalar arithmetic including IEEE double", "why_tests_cant": "Unbounded histories; every later call must preserve every setting.", "anchors": ["src/filter_base.cpp:FilterBase::setControlParams", "src/filter_base.cpp:FilterBase::setControl", "src/filter_base.cpp:FilterBase::setProcessNoiseCovariance", "src/filter_base.cpp:FilterBase::reset", "src/ekf.cpp:Ekf::predict", "src/ukf.cpp:Ukf::predict", "src/ros_filter.cpp:RosFilter::reset"]}
{"id": "C106", "title": "The filter in a mirror", "statement": "Two EKFs see the same history of measurements, commands and calls, one of them in a mirror that exchanges front and back, left and right, or up and down: of positions, velocities and accelerations the component across the mirror changes its sign, of angles and angular velocities the other two. Then the two estimates are mirror images of each other at all times, covariances included, and both accept and reject the same measurements, as long as acceleration limits are not negative and no measured angle is exactly opposite to the expected one. Both conditions are needed (refuted without): in a tie the filter always turns to the same side, and a negative limit, which nothing rejects, accelerates a robot that stands still and is told to stand still.", "quantifier": "all three mirrors, all histories of calls, states, covariances, measurement subsets and process noises; EKF over exact reals, inverse correct where one exists", "why_tests_cant": "Relates two unbounded histories over all states; a sign error anywhere in the model matrix, the Jacobian or the control law breaks it.", "anchors": ["src/ekf.cpp:Ekf::predict", "src/ekf.cpp:Ekf::correct", "src/filter_base.cpp:FilterBase::processMeasurement", "src/filter_base.cpp:FilterBase::computeControlAcceleration", "src/filter_base.cpp:FilterBase::computeDynamicProcessNoiseCovariance"]}
{"id": "C107", "title": "Sensors that tell the truth", "statement": "A message that tells the truth about the robot - a pose of a frame of the robot in any frame the transforms relate to the world frame, the velocity of the point where the sensor is mounted in the axes of the sensor, the attitude reported by an aligned IMU, the specific force felt by an accelerometer mounted off the centre with or without the reaction to gravity - makes measurements that agree with the robot's state at the stamp of the message in every variable they measure, provided the node knows the angular velocity and acceleration of the robot. A started EKF node all of whose messages are true for a robot that accelerates constantly without turning publishes the truth at all times, if measurements are fused in order and the first one leaves nothing unknown that is not already so. Not so for a node that does not know the turning: it takes the motion of a sensor in front of the centre for that of the robot, and the angular acceleration it starts with is uninitialised memory that gets into the first accelerations (refuted).", "quantifier": "all messages, sensor mountings, transforms, selections and nodes; all courses without turning and all executions of started nodes; exact reals, any inverse, any queue tie-breaks", "why_tests_cant": "All geometries of mounting and unbounded executions; ties the preparation of messages to what the filter does with them.", "anchors": ["src/ros_filter.cpp:RosFilter::preparePose", "src/ros_filter.cpp:RosFilter::prepareTwist", "src/ros_filter.cpp:RosFilter::prepareAcceleration", "src/ros_filter.cpp:RosFilter::imuCallback", "src/ros_filter.cpp:RosFilter::odometryCallback", "src/ros_filter.cpp:RosFilter::periodicUpdate", "src/ros_filter.cpp:RosFilter::differentiateMeasurements"]}
{"id": "C108", "title": "Dead reckoning never becomes certain", "statement": "Without measurements of the position the EKF does not become more certain of it: a matrix on the position alone that lies below the estimate covariance still does so after any history of predictions, corrections and measurements of anything else, enlarged by the process noise times the time predicted over - for a sequence of measurements the time that passed. An EKF node whose odometry and pose inputs are differential or have x, y and z switched off never publishes a position more certain than its configured initial covariance, through resets, smoothing and set_pose requests that keep to it. Not so for the position variance as such: while position and velocity are correlated, a velocity measurement reduces it (refuted).", "quantifier": "all histories of calls, all measurements and gains whatever Eigen returns; all executions of started nodes; exact reals", "why_tests_cant": "An invariant over unbounded histories; a test sees the covariance of a few runs and no lower bound.", "anchors": ["src/ekf.cpp:Ekf::predict", "src/ekf.cpp:Ekf::correct", "src/filter_base.cpp:FilterBase::processMeasurement", "src/ros_filter.cpp:RosFilter::loadParams", "src/ros_filter.cpp:RosFilter::preparePose", "src/ros_filter.cpp:RosFilter::prepareTwist", "src/ros_filter.cpp:RosFilter::getFilteredOdometryMessage"]}
{"id": "C109", "title": "What the update rate diagnostic says", "statement": "The updater's frequency task gives one verdict per report. The verdict compares the number of enabled updates that found the filter initialised since ten reports ago (since the start, during the first ten) with the time since then. The count is at least the number of odometry messages published, and equal if corrected publication is permitted. A count within one of frequency times time, over at least 0.6 s, is judged as met, and so is a timer that keeps the period the node gives it while the window is no shorter than that; half the frequency is judged too low above 4.5 Hz and twice the frequency too high above 2.5 Hz. An update complains about its duration exactly if it is enabled and took longer than one period. False: that the verdict is about published messages (one message in a second at 10 Hz counts as met), that a low rate is noticed at 2 Hz and less, and that a publishing node without print_diagnostics is not reported as dead.", "quantifier": "all nodes, events, clock readings and queue tie-breaks in every scalar arithmetic; the limits over exact reals; witnesses in primitive floats", "why_tests_cant": "Unbounded executions; the verdict depends on when ten earlier reports were made.", "anchors": ["src/ros_filter.cpp:RosFilter::periodicUpdate", "src/ros_filter.cpp:RosFilter::initialize"]}
{"id": "C110", "title": "LLtoUTM and UTMtoLL undo each other", "statement": "What LLtoUTM returns is the easting, northing and convergence at which GeographicLib places the point, with the MGRS grid zone designator of that place. Where the library's Reverse undoes its Forward and the designator names zone and hemisphere, UTMtoLL gives back latitude, longitude and convergence, and other coordinates with the same designator are read in the zone and hemisphere of the point, not in one of their own. Within a zone LLtoUTM undoes UTMtoLL. The forms without convergence agree with the others. A failing UTMtoLL writes none of its outputs. False: that a failing LLtoUTM writes none; it can leave the coordinates of the new point with the zone of an old one, which denote a third.", "quantifier": "all points, coordinates, designators, previous outputs and libraries; every scalar arithmetic", "why_tests_cant": "Existing tests convert one point; the properties are about every point and every way to fail.", "anchors": ["include/robot_localization/navsat_conversions.hpp:LLtoUTM", "include/robot_localization/navsat_conversions.hpp:UTMtoLL"]}
{"id": "C111", "title": "Vertical attitudes lose roll and heading", "statement": "set_pose gives the state the attitude of the message exactly if the forward axis, seen in the world frame, is not vertical or the left axis is the one of zero roll and heading. With a vertical forward axis the state, the measurement of a pose input and that of an aligned IMU get roll 0, pitch plus or minus a quarter turn and heading 0, whatever the attitude. In every arithmetic the Euler angles of a quaternion whose rotation has plus or minus one (or beyond) in the first entry of the last row have that pitch and heading 0, without a division. False: that set_pose always takes over the attitude.", "quantifier": "all messages, rigid transforms, nodes and configurations over exact reals; all quaternions in every arithmetic", "why_tests_cant": "Single attitudes are tested, none of them vertical; the theorem decides every attitude.", "anchors": ["src/ros_filter.cpp:RosFilter::preparePose", "src/ros_filter.cpp:RosFilter::setPoseCallback", "src/ros_filter_utilities.cpp:quatToRPY"]}
{"id": "C112", "title": "A published pose is restored by set_pose", "statement": "Every published odometry message shows the filter after some cycle. Its pose with covariance, sent to set_pose of any node with the same world frame, gives that node the position and the whole pose covariance of that filter, and, where roll and heading lie in (-pi, pi] and pitch strictly between the quarter turns, the same six pose variables. The attitude is the same exactly if the pitch is not vertical or the heading and roll cancel there. Velocities and accelerations become zero, and the rest of the covariance one millionth of the identity. A node in two_d_mode gets x, y and yaw; everything else becomes zero, and of the pose covariance only the variances of z, roll and pitch are replaced (by one millionth), not their covariances. False: that the attitude is always restored.", "quantifier": "all executions, nodes, queue tie-breaks, filter types, configurations with that world frame and receiving nodes; exact reals", "why_tests_cant": "Relates two nodes through the published message for every execution of the first and every state of the second.", "anchors": ["src/ros_filter.cpp:RosFilter::setPoseCallback", "src/ros_filter.cpp:RosFilter::preparePose", "src/ros_filter.cpp:RosFilter::getFilteredOdometryMessage", "src/ros_filter.cpp:RosFilter::copyCovariance"]}
