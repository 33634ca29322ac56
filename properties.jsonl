{"id": "C01", "title": "Buffer stays sorted with one entry per time stamp", "statement": "After any history of inserts, time updates, age-based clean-ups and clears, the time-sorted buffer lists its objects in strictly increasing time order with at most one object per time stamp; inserting never replaces or reorders what is already there: if the time is free exactly that one object is added, otherwise the buffer is unchanged and the caller is handed the object that was already stored.", "quantifier": "every finite history of buffer operations with every argument", "why_tests_cant": "a test exercises a handful of interleavings of a handful of stamps", "anchors": ["msf_core/include/msf_core/msf_sortedContainer.h: SortedContainer::Insert, UpdateTime, ClearOlderThan, Clear"]}
{"id": "C02", "title": "Closest-in-time lookup returns the true nearest object", "statement": "Whenever the buffer is non-empty, asking for the object closest to a time returns a stored object such that no other stored object is strictly nearer; a tie goes to the older one. This holds for the iterator-returning and for the value-returning query (they agree), for query times before, inside and after the stored range.", "quantifier": "every buffer content and every query time", "why_tests_cant": "nearest-neighbour claims quantify over every stored object and every query; before-begin queries depend on undefined iterator arithmetic a passing test may hide", "anchors": ["msf_core/include/msf_core/msf_sortedContainer.h: SortedContainer::GetIteratorClosest, GetClosest, GetIteratorClosestBefore, GetIteratorBeforeBegin"]}
{"id": "C03", "title": "Before/after lookup brackets the query time", "statement": "The closest-before query returns the latest object strictly older than the query time, the closest-after query the earliest object strictly newer; nothing stored lies strictly between the returned object and the query time, and when no such object exists the caller can tell (invalid object) instead of getting an object on the wrong side.", "quantifier": "every buffer content and every query time", "why_tests_cant": "bracketing is a claim about the absence of objects in a range, for all contents", "anchors": ["msf_core/include/msf_core/msf_sortedContainer.h: SortedContainer::GetClosestBefore, GetClosestAfter"]}
{"id": "C04", "title": "Age-based clean-up only forgets old data", "statement": "Cleaning up with a maximum age never removes the newest object and never removes anything that is newer than (newest time - age) by more than half a sampling gap; what remains is a suffix of the previous content; at most one object older than the cutoff survives; if the buffer spans less than the age nothing is removed.", "quantifier": "every buffer content and every age >= 0", "why_tests_cant": "which objects fall on which side of the cutoff depends on arbitrary spacing of stamps", "anchors": ["msf_core/include/msf_core/msf_sortedContainer.h: SortedContainer::ClearOlderThan", "msf_core/include/msf_core/implementation/msf_core_inl.h: MSF_Core::CleanUpBuffers"]}
{"id": "C05", "title": "Moving an object in time loses nothing else", "statement": "Re-stamping a stored object to a free time keeps every other object untouched and leaves the same object (now carrying the new time) stored under the new time; asking to re-stamp a time that is not stored changes nothing; re-stamping onto an occupied time drops the moved object and hands back the occupant.", "quantifier": "every buffer content, old time and new time", "why_tests_cant": "collision cases depend on arbitrary pairs of stamps", "anchors": ["msf_core/include/msf_core/msf_sortedContainer.h: SortedContainer::UpdateTime"]}
{"id": "C06", "title": "No buffer query performs undefined iterator arithmetic", "statement": "Every public query of the time-sorted buffer is well defined (no stepping before the first or past the last element, no dereference of the end position) for every buffer content, including the empty one, and every query time.", "quantifier": "every buffer content and every query time", "why_tests_cant": "undefined behaviour often appears to work in a test run", "anchors": ["msf_core/include/msf_core/msf_sortedContainer.h: SortedContainer::GetIteratorBeforeBegin, GetIteratorClosestBefore, GetIteratorClosest, GetClosest, ClearOlderThan"]}
{"id": "C07", "title": "Measurements and IMU data are ignored until the filter is initialised", "statement": "On a filter that has not been initialised (or was reset) any sequence of IMU messages and measurements leaves the buffers, the pending queue and the state estimate untouched and publishes nothing.", "quantifier": "every sequence of calls not containing an initialisation, from every internal state with the filter uninitialised", "why_tests_cant": "sequences are unbounded", "anchors": ["msf_core/include/msf_core/implementation/msf_core_inl.h: MSF_Core::ProcessIMU, AddMeasurement, ProcessExternallyPropagatedState"]}
{"id": "C08", "title": "Initialisation starts from a clean slate", "statement": "Initialising, from whatever internal state the filter is in, leaves exactly one state in the state buffer, stamped with the init measurement's time and carrying its values, an empty measurement buffer, an empty pending queue, and requires fresh predictions before measurements are accepted; nothing from before the initialisation influences the estimates produced afterwards.", "quantifier": "every prior internal state, every init measurement and every continuation", "why_tests_cant": "needs two arbitrary prior histories compared over arbitrary futures", "anchors": ["msf_core/include/msf_core/implementation/msf_core_inl.h: MSF_Core::Init"]}
{"id": "C09", "title": "A large backwards jump of the IMU clock, and nothing else in the IMU path, resets the filter", "statement": "When predictions are running, an IMU message stamped more than 10 ms before the state of the previous IMU message resets the filter (nothing is applied or published until re-initialisation) and an IMU message that is not that far back does not.", "quantifier": "every reachable filter state and every IMU message", "why_tests_cant": "depends on arbitrary histories leading to the boundary", "anchors": ["msf_core/include/msf_core/implementation/msf_core_inl.h: MSF_Core::ProcessIMU"]}
{"id": "C10", "title": "Measurements outside the buffered time span do not touch the estimate", "statement": "A measurement older than the oldest buffered state is dropped without any effect; a measurement newer than the newest state changes nothing but is remembered at the end of the pending queue.", "quantifier": "every filter state and every measurement", "why_tests_cant": "equality of the entire filter state before/after for all states", "anchors": ["msf_core/include/msf_core/implementation/msf_core_inl.h: MSF_Core::AddMeasurement"]}
{"id": "C11", "title": "Pending measurements are never lost or duplicated, and are handled in arrival order", "statement": "Each processed IMU message takes at most the oldest pending measurement from the queue; it is either applied, rejected as too old, or put back because it is still in the future; without a re-initialisation or reset, no pending measurement disappears otherwise, and after enough newer IMU messages the queue drains.", "quantifier": "every execution", "why_tests_cant": "conservation and eventual draining quantify over whole executions", "anchors": ["msf_core/include/msf_core/implementation/msf_core_inl.h: MSF_Core::HandlePendingMeasurements, AddMeasurement, ProcessIMU"]}
{"id": "C12", "title": "Delay compensation: late measurements give the same estimate as timely ones", "statement": "The buffered state estimates and the published covariance after an update are a function of the initial state, the IMU messages and the set of accepted measurements only - exactly what a plain filter that processes all of them in time order would produce - whatever delay and arrival order the measurements had (measurement stamps at IMU stamps, distinct, order-independent measurement models).", "quantifier": "every IMU sequence, every set of measurements and every arrival order/delay", "why_tests_cant": "the number of arrival orders is factorial and unbounded", "anchors": ["msf_core/include/msf_core/implementation/msf_core_inl.h: MSF_Core::AddMeasurement, GetClosestState, PropPToState, PropagatePOneStep, ProcessIMU"]}
{"id": "C13", "title": "Every accepted measurement is fused exactly once", "statement": "A measurement accepted by the filter contributes to the estimate exactly once: adding further measurements, in any order, never makes an already fused measurement count twice and never silently discards a new one.", "quantifier": "every execution", "why_tests_cant": "double counting shows only as an over-confident estimate in particular arrival orders / coinciding stamps", "anchors": ["msf_core/include/msf_core/implementation/msf_core_inl.h: MSF_Core::AddMeasurement", "msf_core/include/msf_core/msf_sortedContainer.h: SortedContainer::Insert"]}
{"id": "C14", "title": "A measurement is only fused with a state within 0.1 s of its time stamp", "statement": "Whatever is in the buffers, the state a measurement is applied to is within 0.1 s of the measurement time; it is within 1 ms unless no interpolation between two buffered neighbours was possible.", "quantifier": "every filter state and every measurement time", "why_tests_cant": "arbitrary buffer contents", "anchors": ["msf_core/include/msf_core/implementation/msf_core_inl.h: MSF_Core::GetClosestState"]}
{"id": "C15", "title": "The filter never uses an invalidated iterator or steps outside its buffers", "statement": "No sequence of calls (initialise, IMU messages, measurements) makes the filter dereference an erased buffer position or advance past the end of a buffer.", "quantifier": "every sequence of API calls with every time stamp", "why_tests_cant": "use-after-free of map nodes usually goes unnoticed in tests", "anchors": ["msf_core/include/msf_core/implementation/msf_core_inl.h: MSF_Core::ProcessIMU, AddMeasurement, GetClosestState, PropPToState, PropagatePOneStep", "msf_core/include/msf_core/msf_sortedContainer.h: SortedContainer::UpdateTime, ClearOlderThan"]}
{"id": "C16", "title": "Covariance bookkeeping: published covariance is propagated to the published state", "statement": "In every execution the covariance of every buffered state up to the covariance-propagation time is the one obtained by propagating (and updating) step by step from the initial covariance, and the state published after an update carries the covariance propagated all the way to its own time.", "quantifier": "every execution (with IMU stamps increasing)", "why_tests_cant": "staleness depends on arbitrary interleavings of updates and predictions", "anchors": ["msf_core/include/msf_core/implementation/msf_core_inl.h: MSF_Core::PropPToState, PredictProcessCovariance, PropagatePOneStep, ApplyCorrection"]}
{"id": "C17", "title": "Accelerometer spikes never reach the state buffer", "statement": "In every execution starting from an initial acceleration below the 50 m/s^2 spike threshold, every buffered state created by the IMU path holds an acceleration of norm at most 50, whatever IMU readings are fed in.", "quantifier": "every execution", "why_tests_cant": "unbounded sequences of spikes", "anchors": ["msf_core/include/msf_core/implementation/msf_core_inl.h: MSF_Core::ProcessIMU, ProcessExternallyPropagatedState"]}
{"id": "C18", "title": "Measurement updates keep the covariance symmetric and positive semidefinite", "statement": "For every prior covariance that is symmetric positive semidefinite, every measurement matrix, every residual and every positive definite measurement noise, the covariance after an absolute measurement update is symmetric positive semidefinite.", "quantifier": "every dimension, every P, H, R, residual", "why_tests_cant": "positive semidefiniteness is a for-all-vectors statement", "anchors": ["msf_core/include/msf_core/implementation/msf_measurement_inl.h: MSF_MeasurementBase::CalculateAndApplyCorrection"]}
{"id": "C19", "title": "Measurement updates never increase uncertainty", "statement": "After an accepted absolute update the covariance is at most the prior covariance (in the positive semidefinite order), and equals P - P H^T S^-1 H P.", "quantifier": "every dimension, every P >= 0, H, R > 0", "why_tests_cant": "for-all-vectors statement over all matrices", "anchors": ["msf_core/include/msf_core/implementation/msf_measurement_inl.h: MSF_MeasurementBase::CalculateAndApplyCorrection"]}
{"id": "C20", "title": "Outlier rejection leaves the filter untouched", "statement": "When outlier rejection is enabled and the Mahalanobis distance of the residual exceeds the threshold, neither the state nor the covariance changes; otherwise the update is applied; a residual that is not a number is not accepted.", "quantifier": "every prior, measurement and threshold", "why_tests_cant": "exact boundary and not-a-number handling for all inputs", "anchors": ["msf_core/include/msf_core/implementation/msf_measurement_inl.h: MSF_MeasurementBase::CalculateAndApplyCorrection"]}
{"id": "C21", "title": "Covariance propagation keeps the covariance symmetric and positive semidefinite", "statement": "For every state, every pair of IMU readings and every positive time step, the covariance obtained by one prediction step from a symmetric positive semidefinite covariance is symmetric positive semidefinite.", "quantifier": "every state, IMU reading, noise setting, dt > 0 and covariance", "why_tests_cant": "the process-noise matrix is a page of generated polynomials; a test samples finitely many points", "anchors": ["msf_core/include/msf_core/implementation/msf_core_inl.h: MSF_Core::PredictProcessCovariance", "msf_core/include/msf_core/implementation/calcQCore.h: CalcQCore"]}
{"id": "C22", "title": "Covariance propagation over a non-positive time step is refused", "statement": "Predicting the covariance between two states that are zero or negative time apart changes neither state nor the covariance bookkeeping.", "quantifier": "every pair of states", "why_tests_cant": "all pairs", "anchors": ["msf_core/include/msf_core/implementation/msf_core_inl.h: MSF_Core::PredictProcessCovariance"]}
{"id": "C23", "title": "The relative (stochastic cloning) update keeps the covariance symmetric positive semidefinite", "statement": "For every joint covariance of an old and a new state that is symmetric positive semidefinite, every pair of measurement matrices and every positive definite noise, the covariance after a relative update is symmetric positive semidefinite.", "quantifier": "every dimension and all matrices", "why_tests_cant": "for-all-vectors statement", "anchors": ["msf_core/include/msf_core/implementation/msf_measurement_inl.h: MSF_MeasurementBase::CalculateAndApplyCorrectionRelative"]}
{"id": "C24", "title": "Accumulated state transition composes the per-step transitions in time order", "statement": "The accumulated transition matrix between two buffered states maps the old error state to the new one, i.e. it equals the product of the per-step transition matrices with later steps on the left.", "quantifier": "every number of intermediate states and all transition matrices", "why_tests_cant": "a test with commuting or few matrices passes either way", "anchors": ["msf_core/include/msf_core/implementation/msf_core_inl.h: MSF_Core::GetAccumulatedStateTransitionStochasticCloning"]}
{"id": "C25", "title": "The initial covariance is symmetric", "statement": "The core covariance set at initialisation is symmetric, with positive diagonal, and the covariance of auxiliary states is diagonal, for every number of auxiliary states.", "quantifier": "every state size", "why_tests_cant": "every size", "anchors": ["msf_core/include/msf_core/implementation/msf_core_inl.h: MSF_Core::SetPCore"]}
{"id": "C26", "title": "Error-state and state indices tile the vectors exactly", "statement": "For every list of state variables, the index ranges computed at compile time for the variables are pairwise disjoint, in order, and together cover exactly the correction (error-state) vector and the full state vector; quaternions take 3 and 4 entries respectively.", "quantifier": "every state definition (list of variables)", "why_tests_cant": "a test instantiates a few state definitions", "anchors": ["msf_core/include/msf_core/msf_tmp.h: CountStates, GetStartIndex, ComputeStartIndex, CorrectionStateLengthForType, StateLengthForType"]}
{"id": "C27", "title": "Corrections reach exactly the state they belong to", "statement": "Applying a correction vector changes each state variable by exactly its own segment: vector states additively (or multiplicatively where declared so), quaternions by right multiplication with the small rotation and renormalisation; every other variable is unaffected by that segment.", "quantifier": "every state definition, state and correction vector", "why_tests_cant": "all definitions and values", "anchors": ["msf_core/include/msf_core/msf_tmp.h: CorrectState", "msf_core/include/msf_core/implementation/msf_state_inl.h: GenericState_T::Correct"]}
{"id": "C28", "title": "The non-drifting reference used for failure detection is chosen correctly", "statement": "The state selected for fuzzy-tracking detection is non-drifting; a non-drifting quaternion is selected whenever one exists, otherwise a non-drifting position, otherwise none.", "quantifier": "every state definition", "why_tests_cant": "every list", "anchors": ["msf_core/include/msf_core/msf_tmp.h: FindBestNonTemporalDriftingState, IndexOfBestNonTemporalDriftingState"]}
{"id": "C29", "title": "Propagation copies exactly the non-propagated states", "statement": "After a state prediction every state variable that is not part of the propagated core equals its previous value, and the re-initialisation of states copies only the variables the init measurement explicitly sets.", "quantifier": "every state definition and all values", "why_tests_cant": "every definition", "anchors": ["msf_core/include/msf_core/msf_tmp.h: CopyNonPropagationStates, CopyInitStates, ResetState", "msf_core/include/msf_core/implementation/msf_measurement_inl.h: MSF_InitMeasurement::Apply"]}
{"id": "C30", "title": "Process noise of auxiliary states lands on their own diagonal block", "statement": "Copying user supplied noise of non-temporal-drifting/auxiliary states writes exactly the diagonal block of that state in the process-noise matrix and no core entry.", "quantifier": "every state definition and all blocks", "why_tests_cant": "every definition", "anchors": ["msf_core/include/msf_core/msf_tmp.h: CopyQBlocksFromAuxiliaryStatesToQ"]}
{"id": "C31", "title": "Fixed IMU biases stay fixed", "statement": "With the fixed-bias option on, no correction, however large, changes the gyroscope or accelerometer bias of any state, and all other variables are corrected as if the option was off.", "quantifier": "every state definition with the standard core layout, every correction", "why_tests_cant": "all values", "anchors": ["msf_core/include/msf_core/implementation/msf_core_inl.h: MSF_Core::ApplyCorrection"]}
{"id": "C32", "title": "States declared fixed are not moved by updates", "statement": "When a sensor marks a calibration or scale state as fixed, a measurement update leaves that state unchanged (the correction computed for it is zero), whatever the covariance and residual were.", "quantifier": "every covariance, residual, state and every subset of fixed states", "why_tests_cant": "zero gain must hold for all matrices", "anchors": ["msf_updates/include/msf_updates/pose_sensor_handler/pose_measurement.h: CalculateH", "msf_updates/include/msf_updates/position_sensor_handler/position_measurement.h: CalculateH", "msf_updates/include/msf_updates/spherical_position_sensor/spherical_measurement.h: CalculateH", "msf_core/include/msf_core/msf_state.h: ClearCrossCov"]}
{"id": "C33", "title": "Small-angle quaternions are unit quaternions and attitude stays normalised", "statement": "The quaternion built from a small rotation vector has norm one for every rotation vector inside and outside the small-angle range, and attitude stays of unit norm under prediction and correction whenever the prediction is defined.", "quantifier": "every rotation vector and unit quaternion", "why_tests_cant": "all reals", "anchors": ["msf_core/include/msf_core/eigen_utils.h: QuaternionFromSmallAngle", "msf_core/include/msf_core/implementation/msf_core_inl.h: MSF_Core::PropagateState"]}
{"id": "C34", "title": "Attitude prediction follows the gyroscope to the order it claims", "statement": "The attitude integration matrix is the truncated exponential series of the mean rotation rate plus the first-order commutator correction; for a constant rate it agrees with the true exponential series term by term up to fourth order.", "quantifier": "every rate and time step", "why_tests_cant": "all reals; a numeric test at small dt hides a wrong high-order term", "anchors": ["msf_core/include/msf_core/implementation/msf_core_inl.h: MSF_Core::PropagateState"]}
{"id": "C35", "title": "Prediction integrates constant specific force exactly", "statement": "With a constant attitude and constant bias-corrected acceleration, prediction yields exactly the constant-acceleration trajectory for position and velocity, and splitting a time step into two gives the same result; a filter at rest that measures gravity does not move.", "quantifier": "every state, reading and step split", "why_tests_cant": "all reals", "anchors": ["msf_core/include/msf_core/implementation/msf_core_inl.h: MSF_Core::PropagateState"]}
{"id": "C36", "title": "Fuzzy-tracking detector memory is well behaved", "statement": "The ring buffer index stays within its 30 rows for every number of checks, rows are replaced oldest first, no detection is possible before 30 samples, a detected failure restores exactly the non-propagated states from before the update and does not store the outlier sample.", "quantifier": "every number and sequence of checks", "why_tests_cant": "wrap-around behaviour over unbounded histories", "anchors": ["msf_core/include/msf_core/msf_checkFuzzyTracking.h: CheckFuzzyTracking::Check, Reset", "msf_core/include/msf_core/msf_tools.h: GetMedian"]}
{"id": "C37", "title": "Median is a true middle element", "statement": "The value used as median has at most half of the samples below and at most half above it, for every sample set.", "quantifier": "every non-empty sample list", "why_tests_cant": "all lists", "anchors": ["msf_core/include/msf_core/msf_tools.h: GetMedian"]}
{"id": "C38", "title": "Measurement matrices are the derivatives of the measurement predictions", "statement": "For each sensor (position, pressure, pose, distance, angle) the measurement matrix used in the update is the derivative of the predicted measurement with respect to the error state.", "quantifier": "every state", "why_tests_cant": "finite differences at sampled states miss wrong blocks at nominal values (scale 1, identity alignment)", "anchors": ["msf_updates/include/msf_updates/position_sensor_handler/position_measurement.h", "msf_updates/include/msf_updates/pressure_sensor_handler/pressure_measurement.h", "msf_updates/include/msf_updates/pose_sensor_handler/pose_measurement.h", "msf_updates/include/msf_updates/spherical_position_sensor/spherical_measurement.h"]}
{"id": "C39", "title": "Initialisation is consistent with the first measurement", "statement": "Right after initialisation from a sensor reading, the predicted measurement of that sensor equals the reading (zero residual), for every calibration and reading.", "quantifier": "every calibration, reading and scale", "why_tests_cant": "all reals", "anchors": ["msf_updates/src/pose_msf/pose_sensormanager.h: Init", "msf_updates/src/position_msf/position_sensormanager.h: Init", "msf_updates/src/pose_pressure_msf/pose_pressure_sensormanager.h: Init", "msf_updates/src/position_pose_msf/position_pose_sensormanager.h: Init"]}
{"id": "C40", "title": "Pose throttling guarantees a minimum spacing", "statement": "The pose handler accepts measurements with strictly increasing stamps spaced by more than (minimum spacing - 1 ms), and accepts every pose that is at least that much newer than the previously accepted one, for every message sequence.", "quantifier": "every sequence of messages", "why_tests_cant": "unbounded sequences", "anchors": ["msf_updates/include/msf_updates/pose_sensor_handler/implementation/pose_sensorhandler.hpp: ProcessPoseMeasurement"]}
{"id": "C41", "title": "GPS conversion is a rigid local frame", "statement": "The local coordinates of the reference itself are zero; distances between any two converted points equal their earth-centred distances; the inverse height adjustment shifts heights as requested.", "quantifier": "every reference latitude/longitude/altitude and all points", "why_tests_cant": "all reals", "anchors": ["msf_core/src/lib/gps_conversion.cc: GPSConversion"]}
{"id": "C42", "title": "Barometer averaging is the mean of the last ten readings", "statement": "The height handed to the filter is the mean of the most recent ten height readings in every history of readings.", "quantifier": "every sequence of readings", "why_tests_cant": "unbounded histories incl. start-up", "anchors": ["msf_updates/include/msf_updates/pressure_sensor_handler/implementation/pressure_sensorhandler.hpp: MeasurementCallback"]}
{"id": "C43", "title": "Correction messages reproduce the filter state", "statement": "Applying the published state correction to the state the high-level controller sent yields exactly the filter's updated state.", "quantifier": "every pair of states", "why_tests_cant": "all reals", "anchors": ["msf_core/include/msf_core/msf_sensormanagerROS.h: PublishStateAfterUpdate"]}
{"id": "C44", "title": "Covariance message blocks are laid out as documented", "statement": "The pose covariance array published row-major contains position/orientation blocks in order, is symmetric whenever the filter covariance is, and reading a block back returns what was written.", "quantifier": "every covariance", "why_tests_cant": "all matrices", "anchors": ["msf_core/include/msf_core/implementation/msf_state_inl.h: GetPoseCovariance, GetTwistCovarianceInImuFrame", "msf_core/include/msf_core/similaritytransform.h: GeometryMsgsCovBlockToEigen, EigenCovBlockToGeometryMsgs"]}
{"id": "C45", "title": "Timing statistics are those of the recorded samples", "statement": "For every sequence of recorded durations: the count, sum and mean are those of all samples, the rolling mean is the mean of the last window, the variance is non-negative, and minimum and maximum are attained by recorded samples.", "quantifier": "every sequence of samples", "why_tests_cant": "unbounded sequences with window wrap", "anchors": ["msf_timing/include/msf_timing/Timer.h: Accumulator"]}
{"id": "C46", "title": "Sequence watchdog and sensor identities", "statement": "Sensor handlers get pairwise distinct identifiers in registration order; the sequence watchdog warns exactly when a message sequence number differs from its predecessor plus one.", "quantifier": "every number of handlers and every message sequence", "why_tests_cant": "unbounded", "anchors": ["msf_core/include/msf_core/msf_sensormanager.h: AddHandler", "msf_core/include/msf_core/msf_sensorhandler.h: SequenceWatchDog"]}
{"id": "C47", "title": "A prediction does not depend on leftovers of earlier predictions", "statement": "The transition and noise matrices stored in a state are only partly overwritten by a prediction; nevertheless the predicted covariance and the stored matrices are those obtained from freshly constructed matrices, however often the state was predicted from before.", "quantifier": "every state, every history of predictions with any noise settings", "why_tests_cant": "depends on which of several hundred matrix entries are rewritten, for every history", "anchors": ["msf_core/include/msf_core/implementation/msf_core_inl.h: MSF_Core::PredictProcessCovariance", "msf_core/include/msf_core/implementation/calcQCore.h: CalcQCore"]}
{"id": "C48", "title": "The transition matrix integrates the error dynamics", "statement": "As a function of the step length the transition matrix starts at the identity and changes by the error dynamics of the IMU model applied to it: exactly in the position, velocity and bias rows, and in the attitude rows except for a term cubic in the rotation rate; without rotation, splitting a step into two does not change it.", "quantifier": "every attitude, rotation rate, acceleration and step length", "why_tests_cant": "a statement about the derivative of 225 functions for all real inputs", "anchors": ["msf_core/include/msf_core/implementation/msf_core_inl.h: MSF_Core::PredictProcessCovariance"]}
{"id": "C49", "title": "The process noise does not depend on the choice of units", "statement": "Expressing lengths or times in another unit (in the state, the IMU readings, the noise densities and the step length) changes every entry of the core process noise by exactly the factor its unit calls for.", "quantifier": "every attitude, rate, acceleration, noise setting, step length and every change of unit", "why_tests_cant": "an identity between generated formulas over all real inputs; numeric tests run in one system of units", "anchors": ["msf_core/include/msf_core/implementation/calcQCore.h: CalcQCore"]}
{"id": "C50", "title": "Every state of every execution is well formed", "statement": "In every execution of the position, pose, pose-pressure and position-pose filters, whatever the IMU readings and measurement values and covariances, every buffered and every published state has the variables of its state list, each with a value of the declared size, all quaternions of unit length and isotropic noise blocks, or has become not-a-number as a whole; no access to a state variable is undefined.", "quantifier": "every sequence of calls with well-formed initial states and external attitudes of unit length", "why_tests_cant": "the space of call sequences, delays and real readings is unbounded", "anchors": ["msf_core/include/msf_core/implementation/msf_core_inl.h", "msf_core/include/msf_core/implementation/msf_state_inl.h", "msf_updates/include/msf_updates"]}
{"id": "C51", "title": "The fixed-bias option keeps the biases through whole executions", "statement": "With the fixed-bias option set, in every execution the gyroscope and accelerometer biases of every buffered and published state are the ones the filter was initialised with.", "quantifier": "every sequence of calls, every reading and delay", "why_tests_cant": "needs an invariant over unbounded executions with replays", "anchors": ["msf_core/include/msf_core/implementation/msf_core_inl.h: MSF_Core::ApplyCorrection"]}
{"id": "C52", "title": "The visual scale never becomes negative", "statement": "In every execution of a filter with a visual scale that starts with a non-negative scale, the scale of every buffered and published state is non-negative.", "quantifier": "every sequence of calls, every reading and delay", "why_tests_cant": "needs an invariant over unbounded executions with replays", "anchors": ["msf_updates/src/pose_msf/pose_sensormanager.h: SanityCheckCorrection", "msf_updates/src/pose_pressure_msf/pose_pressure_sensormanager.h: SanityCheckCorrection", "msf_updates/src/position_pose_msf/position_pose_sensormanager.h: SanityCheckCorrection"]}
{"id": "C53", "title": "Variables declared fixed keep their initial value through whole executions", "statement": "If every measurement of an execution declares a variable fixed (antenna position for position measurements; scale, camera attitude and position, world-vision attitude and position for pose measurements), that variable has its initial value in every buffered and published state.", "quantifier": "every sequence of calls, every reading, covariance and delay", "why_tests_cant": "needs an invariant over unbounded executions with replays", "anchors": ["msf_updates/include/msf_updates/pose_sensor_handler/pose_measurement.h", "msf_updates/include/msf_updates/position_sensor_handler/position_measurement.h", "msf_core/include/msf_core/implementation/msf_core_inl.h: MSF_Core::ApplyCorrection"]}
{"id": "C54", "title": "Every covariance of every execution is a covariance", "statement": "In every execution with positive definite measurement noise the covariance of every buffered and published state is symmetric and positive semi-definite.", "quantifier": "every sequence of calls, every reading, noise setting and delay", "why_tests_cant": "needs an invariant over unbounded executions of real matrices", "anchors": ["msf_core/include/msf_core/implementation/msf_core_inl.h: MSF_Core::PredictProcessCovariance", "msf_core/include/msf_core/implementation/msf_measurement_inl.h"]}
{"id": "C55", "title": "The process noise is the integral of the noise the transition matrix spreads", "statement": "Each entry of the core process noise, as a function of the step length, is the integral from 0 of F(t) G S (F(t) G)^T, where F is the transition matrix the filter uses, G injects the four white noises into the error dynamics and S holds the squared noise parameters.", "quantifier": "every unit attitude, rate, acceleration, noise setting, step length and entry", "why_tests_cant": "an identity of real functions in all arguments", "anchors": ["msf_core/include/msf_core/implementation/calcQCore.h", "msf_core/include/msf_core/implementation/msf_core_inl.h: MSF_Core::PredictProcessCovariance"]}
{"id": "C56", "title": "A pose sensor that publishes the inverse of its pose is read as its pose", "statement": "With measurement_world_sensor off, the pose handed to the filter is the inverse of the pose in the message (as rigid motions), whatever the covariance setting; with it on the pose is handed on unchanged.", "quantifier": "every position, unit quaternion and setting", "why_tests_cant": "equality of rigid motions for all inputs", "anchors": ["msf_updates/include/msf_updates/pose_sensor_handler/pose_measurement.h: PoseMeasurement::MakeFromSensorReadingImpl"]}
{"id": "C57", "title": "Every measurement handed to the filter has positive definite noise", "statement": "The measurement noise matrix of every measurement made from a sensor message is symmetric and positive definite, for every nonzero noise setting.", "quantifier": "every message, noise setting, covariance setting, attitude", "why_tests_cant": "positive definiteness for all covariances and attitudes", "anchors": ["msf_updates/include/msf_updates/pose_sensor_handler/pose_measurement.h", "msf_updates/include/msf_updates/position_sensor_handler/position_measurement.h", "msf_updates/include/msf_updates/pressure_sensor_handler/pressure_measurement.h", "msf_updates/include/msf_updates/spherical_position_sensor/spherical_measurement.h"]}
{"id": "C58", "title": "State arrays hold every number of the state in its place", "statement": "The full state message holds exactly the numbers of all state variables, in order, whatever it held before; the core message and vector those of the core variables; the index table lists every variable once with consecutive ranges that fill the error state.", "quantifier": "every state list that compiles, every state, every previous array", "why_tests_cant": "all state lists and values", "anchors": ["msf_core/include/msf_core/msf_tmp.h: FullStatetoDoubleArray, CoreStatetoDoubleArray, GetIndicesInErrorState", "msf_core/include/msf_core/implementation/msf_state_inl.h: ToFullStateMsg, ToCoreStateMsg, ToEigenVector"]}
{"id": "C59", "title": "The average similarity transform is the best fit and exact on exact data", "statement": "From6DoF::Compute returns the position and scale of least squares and a unit orientation that agrees best with the relative orientations; for pairs of poses that fit one transform it returns that transform (the orientation up to its sign).", "quantifier": "every list of at least two pairs with unit quaternions, every threshold, every decomposition meeting Eigen's documentation", "why_tests_cant": "optimality over all transforms, all data", "anchors": ["msf_core/src/similaritytransform.cc", "msf_core/include/msf_core/similaritytransform.h"]}
{"id": "C60", "title": "A tag reports the statistics of exactly the times its timers measured", "statement": "In every sequence of constructing, starting, stopping and destroying timers, queries and resets, the vector of statistics is never left, a tag and its handle determine each other, a handle stays until the next reset, and asking for a tag gives the statistics of exactly the times recorded by timers made for it since the last reset.", "quantifier": "every sequence of events, every tag", "why_tests_cant": "all interleavings of timers and resets", "anchors": ["msf_timing/src/Timer.cc", "msf_timing/include/msf_timing/Timer.h"]}
{"id": "C61", "title": "Distorted poses follow the drawn random walk", "statement": "A distorted reading is the pose moved and scaled by the sums of the drawn rates times the time passed and turned by the product of the drawn small rotations; drawing zeros distorts nothing; constant rates give a drift that depends only on the time since the first message of the sensor.", "quantifier": "every sequence of messages and drawn numbers", "why_tests_cant": "all random numbers, all stamps", "anchors": ["msf_updates/src/msf_distort/PoseDistorter.cc", "msf_updates/include/msf_updates/pose_sensor_handler/pose_measurement.h"]}
{"id": "C62", "title": "Time stamps keep their order and spacing as doubles", "statement": "Converting the stamps of messages to doubles never exchanges two stamps, compares stamps more than 240 ns apart as their nanoseconds do, gives elapsed times, delayed measurement times and republished stamps within 240 ns, and throttling decides by the stamps up to a microsecond.", "quantifier": "all stamps before 2038 (after 2004 for elapsed times)", "why_tests_cant": "all stamps, rounding", "anchors": ["msf_core/include/msf_core/msf_IMUHandler_ROS.h", "msf_updates/include/msf_updates/pose_sensor_handler/implementation/pose_sensorhandler.hpp", "msf_core/include/msf_core/msf_sensormanagerROS.h"]}
{"id": "C63", "title": "A relative measurement is compared with the previous one of its own sensor", "statement": "For every content of the measurement buffer and every buffered time, GetPreviousMeasurement is defined and returns the latest earlier measurement of the given sensor if there is one and the invalid measurement otherwise.", "quantifier": "every buffer content, every time, every sensor id", "why_tests_cant": "all buffers; the before-the-first position depends on the tree shape", "anchors": ["msf_core/include/msf_core/implementation/msf_core_inl.h: MSF_Core::GetPreviousMeasurement"]}
{"id": "C64", "title": "Relative measurements in the core", "statement": "In every execution with relative pose measurements, a relative update uses the latest earlier measurement of the same sensor, the state nearest to it, never after the state being updated, and the product of the transitions stored from the one state to the other; every iterator it uses is valid; executions without relative measurements are unaffected; and the product covers the whole time between the two states.", "quantifier": "every sequence of calls, every buffer content, every stamp", "why_tests_cant": "all interleavings; the second query inserts states, erases old ones and moves the covariance time", "anchors": ["msf_core/include/msf_core/implementation/msf_core_inl.h: GetAccumulatedStateTransitionStochasticCloning, GetClosestState", "msf_updates/include/msf_updates/pose_sensor_handler/pose_measurement.h: Apply, relative branch"]}
{"id": "C65", "title": "Which sensor messages reach the filter", "statement": "For every sequence of messages and settings, a sensor handler hands on exactly the messages that carry a usable covariance or come with a fixed one and pass its decimation or minimum interval, with the stamp less the delay, the configured calibration flags and the reading; the flag that a first measurement was received implies that one was handed on; the sequence watchdog warns only about lost messages.", "quantifier": "every message sequence, every sequence of settings, every topic", "why_tests_cant": "all interleavings of topics and reconfigurations", "anchors": ["msf_updates/include/msf_updates/pose_sensor_handler/implementation/pose_sensorhandler.hpp", "msf_updates/include/msf_updates/position_sensor_handler/implementation/position_sensorhandler.hpp", "msf_updates/include/msf_updates/pressure_sensor_handler/implementation/pressure_sensorhandler.hpp", "msf_updates/include/msf_updates/spherical_sensor_handler/implementation/spherical_sensorhandler.hpp"]}
{"id": "C66", "title": "Whole nodes keep the filter well formed", "statement": "For every sequence of messages, reconfigurations and service requests to one of the five nodes, starting from its constructors: every buffered and published state is a state of the filter with unit quaternions; with the fixed-bias option the biases stay zero; calibration variables whose flags are set keep their configured start values; a scale set to nonnegative values stays nonnegative; no behaviour is undefined; reconfigurations take effect; initial covariances are symmetric.", "quantifier": "every input sequence of every node", "why_tests_cant": "all histories of five nodes", "anchors": ["msf_updates/src/pose_msf/pose_sensormanager.h", "msf_updates/src/pose_pressure_msf/pose_pressure_sensormanager.h", "msf_updates/src/position_pose_msf/position_pose_sensormanager.h", "msf_updates/src/position_msf/position_sensormanager.h", "msf_updates/src/spherical_msf/spherical_sensormanager.h", "msf_core/include/msf_core/msf_IMUHandler_ROS.h"]}
{"id": "C67", "title": "The evaluation tool compares synchronised poses and reports true errors", "statement": "For every recording with ground truth in time order, a run of the evaluation tool compares every ground truth message from its start offset on with the first estimate that is not older, and writes a row for exactly the pairs less than 5 ms apart whose estimate is more than 49 ms younger than the last one written. A row holds the distance travelled so far and the distance, attitude error and gravity direction error between the estimate and the ground truth after aligning the world frames and applying the calibration. Estimates that equal the ground truth up to the choice of world frames give zero errors, the errors do not depend on the choice of the frames, the gravity error is at most the attitude error, and the tool terminates.", "quantifier": "every recording, calibration and pair of world frames", "why_tests_cant": "one recording shows one alignment", "anchors": ["msf_eval/src/msf_eval.cpp"]}
{"id": "C68", "title": "Reconfiguration keeps settings in range and starts the filter when asked", "statement": "For every start parameters and every sequence of reconfiguration requests, messages and service requests: the settings in force stay within the declared ranges, values outside are replaced by the nearest ones inside and values inside are taken over; a request initialises the filter once if it sets the initialisation flag and once more if it sets the height flag after a position was measured, with the requested scale or the measured height over the requested one, and not otherwise; an honoured flag is taken back; the initial scale is a number, and nonnegative for poses above the origin.", "quantifier": "every request and message sequence of every node", "why_tests_cant": "all interleavings of requests with messages", "anchors": ["msf_updates/src/pose_msf/pose_sensormanager.h", "msf_updates/src/pose_pressure_msf/pose_pressure_sensormanager.h", "msf_updates/src/position_pose_msf/position_pose_sensormanager.h", "msf_updates/cfg/SinglePoseSensor.cfg", "msf_updates/cfg/PosePressureSensor.cfg", "msf_updates/cfg/PositionPoseSensor.cfg"]}
{"id": "C69", "title": "The compass script starts the filter with the heading of the compass", "statement": "After the script has heard a heading and sent it, and whatever else happens to the node without changing the yaw, a filter that is then initialised has the attitude of that heading about the vertical axis: its x axis points along the levelled x axis of the IMU with the compass, and z stays up; a heading in radians or degrees within half a turn is taken as it is; the script changes no other setting and never initialises the filter.", "quantifier": "every sequence of compass messages, turns of the script's loop, reconfiguration requests, sensor messages and service requests", "why_tests_cant": "all interleavings and all orientations", "anchors": ["msf_updates/src/position_msf/init_yaw_from_compass.py", "msf_updates/src/position_msf/position_sensormanager.h", "msf_updates/src/position_pose_msf/position_pose_sensormanager.h"]}
{"id": "C70", "title": "Colour palettes are complete and of the intended shape", "statement": "Every palette is computed without an out-of-range write, read or conversion and sets exactly the entries 0 to 255; the straight and reversed palettes mirror each other, the red ones are a channel of the grey ones, the logarithmic one rises from 0 to 255 above the straight one, the sine palettes have the stated phases and the third is the second with channels exchanged; in the last palette every channel is the same hump, shifted evenly.", "quantifier": "every palette and index", "why_tests_cant": "the absence of undefined conversions and the shape hold over real numbers, not for sampled entries", "anchors": ["msf_core/src/lib/falsecolor.cc", "msf_core/include/msf_core/falsecolor.h"]}
{"id": "C71", "title": "The relay passes on what its switches let through", "statement": "For every sequence of switch settings and messages the relay publishes exactly the messages heard while the switch of their kind was on, unchanged, once, in order and on the topic of their kind; with both switches on it is transparent; pose messages and the pose switch do not influence the positions.", "quantifier": "every sequence of reconfigurations and messages of any content", "why_tests_cant": "all interleavings", "anchors": ["msf_distort/src/msf_distort.cc", "msf_distort/cfg/MSF_Distort.cfg"]}
{"id": "C72", "title": "The evaluation plots show the errors per stretch of the way", "statement": "The Matlab scripts count every row of the evaluation in the stretch of ten metres in which its distance lies, plot for each stretch the average error in relation to the distance with the 5 % and 95 % percentiles, bound the position error by three standard deviations, and shift a path onto the truth as well as a shift can.", "quantifier": "all tables of rows", "why_tests_cant": "all row counts and distances, including stretch borders", "anchors": ["msf_eval/Matlab/evaluation.m", "msf_eval/Matlab/evaluation_cov.m", "msf_eval/Matlab/plot_paths.m"]}
{"id": "C73", "title": "The quaternion matrices, message conversions and short time stamps say what their comments say", "statement": "The JPL and Hamilton matrices multiply a quaternion by a rate vector on the right and on the left; Xi multiplies a small vector by the quaternion, has orthogonal columns of the length of the quaternion and orthogonal to it, and with the quaternion appended gives the error quaternion; the conversions to messages lose nothing; the printed time stamp is the time modulo 10000 seconds.", "quantifier": "all quaternions, vectors and times", "why_tests_cant": "continuous inputs", "anchors": ["msf_core/include/msf_core/eigen_utils.h", "msf_core/include/msf_core/eigen_conversions.h", "msf_core/src/lib/msf_tools.cc"]}
{"id": "C74", "title": "The type traits strip and add const, references and pointers", "statement": "For every type the traits have one most specialised match; stripping gives the object referred to with or without its const, adding gives a reference (to const) to it, stripping undoes adding, the questions for references and pointers are answered rightly, and two types count as the same variable exactly if they are equal up to const and reference.", "quantifier": "all types without volatile, arrays and functions", "why_tests_cant": "unboundedly many types", "anchors": ["msf_core/include/msf_core/msf_typetraits.h"]}
{"id": "C75", "title": "The logging macros print once, at the rate, or on condition", "statement": "For every sequence of uses at any places and times, a once macro prints at its first use only, a conditional one when its condition holds, and a throttled one when its rate has passed since its last print, not more often and without losing a print that is due.", "quantifier": "all sequences of uses, rates and clock readings", "why_tests_cant": "all interleavings and times, clock jumps", "anchors": ["msf_core/include/msf_core/msf_macros.h"]}
{"id": "C76", "title": "Core parameters stay in their ranges under reconfiguration, and predictions survive it", "statement": "Whatever is on the parameter server and whatever sequence of reconfiguration requests comes, every core noise parameter is in the range of the configuration file, hence positive, and is the nearest allowed value to the one asked for last; parameters not in a request stay. Predictions made while parameters change keep the variances nonnegative under the conditions of C21 for the parameters in force at each step.", "quantifier": "all parameter server contents, sequences of requests, flights with requests between predictions", "why_tests_cant": "all sequences and real parameter values", "anchors": ["msf_core/cfg/MSF_Core.cfg", "msf_core/include/msf_core/msf_sensormanagerROS.h"]}
{"id": "C77", "title": "Every setting of the shipped configuration files is read by the node it is launched with", "statement": "Every line of the *_sensor_fix.yaml files sets a parameter which the node loading it reads, with the type it reads it at, and every remapping of the launch files renames a topic of its node; no two subscriptions of a node are on one topic.", "quantifier": "all node names and namespaces, all prior contents of the parameter server, all values and targets written in place of the shipped ones, all decimal numbers in scientific notation", "why_tests_cant": "a setting without effect shows in no run; all names and values", "anchors": ["msf_updates/*.yaml", "msf_updates/launch", "msf_distort/launch/msf_distort.launch", "msf_updates/include/msf_updates", "msf_core/include/msf_core/msf_sensormanagerROS.h"]}
