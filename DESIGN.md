# Formal model of ethzasl_msf in Rocq: design

Subject: `/repo` (ethz-asl/ethzasl_msf at the pinned commit), read as text, not built or run.
Prover: Coq 8.16.1. Sources in `rocq/theories`, logical root `Verif`.

## 1. How the model is organised

Model files contain definitions only; every definition names the file and lines it models.

| model file | contents | models |
|---|---|---|
| `Outcome.v` | results: value, undefined behaviour, failed assertion | |
| `SortedContainer.v` | time-sorted buffer, iterators as positions | `msf_sortedContainer.h` |
| `Core.v` | the filter core as a state machine over buffers, queue, flags and published events; parametric in the numeric content (record `ops`) | `msf_core_inl.h` |
| `AccNorm.v`, `NavOps.v` | instances of `ops`: real acceleration vectors; the real navigation state and its prediction | `msf_core_inl.h` |
| `StateList.v` | state-variable lists, compile-time index computation, correction, copy, noise copy, export | `msf_tmp.h`, `msf_state*.h`, `ApplyCorrection` |
| `Ordering.v` | compile-time assertions on the order of the core variables | `static_ordering_assertions.h` (both) |
| `Geom.v`, `Propagate.v` | vectors, quaternions, rotation matrices; state prediction | `eigen_utils.h`, `PropagateState` |
| `PCore.v`, `Cov.v` | initial covariance table; measurement update, gate, relative update, accumulation, `ClearCrossCov` over MathComp matrices of any size over any real field | `SetPCore`, `msf_measurement_inl.h`, `msf_state_inl.h` |
| `QCore.v`, `ProcNoise.v`, `Predict.v` | all generated process-noise formulas, transition matrix, auxiliary noise, covariance prediction on whole states | `calcQCore.h`, `PredictProcessCovariance`, `CalculateQAuxiliaryStates` of the managers |
| `Sensors.v`, `SensorsCov.v` | measurement matrices, residuals, readings, manager initialisation; updates with fixed states | `msf_updates/*` |
| `Fuzzy.v` | failure detector, median, whole of `ApplyCorrection` | `msf_checkFuzzyTracking.h`, `msf_tools.h` |
| `Gps.v` | WGS84/ECEF/ENU conversion, matrix to quaternion, NavSatFix callback | `gps_conversion.cc`, `position_sensorhandler.hpp` |
| `Handlers.v` | sequence watchdog, identifiers, throttle, height average, timing accumulator | sensor handlers, `Timer.h` |
| `Timers.v` | named timers, handles, timer objects | `Timer.cc` |
| `Distort.v` | distortion of pose readings | `PoseDistorter.cc`, `pose_measurement.h` |
| `Relative.v` | the core with relative measurements | `msf_core_inl.h`, `pose_measurement.h` |
| `Previous.v` | the previous measurement of a sensor | `msf_core_inl.h` |
| `Stamps.v` | stamps as doubles (Flocq) | handlers, `msf_sensormanagerROS.h`, ros::Time |
| `Similarity.v` | average similarity transform (decompositions as parameters) | `similaritytransform.cc` |
| `Readings.v` | from a sensor message to a measurement with its noise | `*_measurement.h`, sensor handlers |
| `Filter.v` | the whole filter: the core machine with real state lists, covariance prediction, the measurement models, sanity check and detector in one instance of `ops`; the shipped configurations | all of the above |
| `Node.v` | the five nodes: sensor handlers, managers, reconfiguration and services in front of the core | sensor handlers, `*_sensormanager.h`, `msf_IMUHandler_ROS.h` |
| `Eval.v` | the evaluation tool | `msf_eval.cpp` |
| `EvalPlot.v` | binning, averages, percentiles and bars of the evaluation plots, alignment of paths | `msf_eval/Matlab/evaluation.m`, `evaluation_cov.m`, `plot_paths.m` |
| `EigenUtils.v` | quaternion matrices, message conversions, short time stamps | `msf_core/include/msf_core/eigen_utils.h`, `eigen_conversions.h`, `msf_core/src/lib/msf_tools.cc` |
| `TypeTraits.v` | type traits: deduction, partial ordering, results | `msf_core/include/msf_core/msf_typetraits.h` |
| `Logging.v` | once, throttled and conditional logging without ROS | `msf_core/include/msf_core/msf_macros.h` |
| `Reconfigure.v` | parameters, ranges and requests of dynamic_reconfigure, sessions of a node with its server | `msf_updates/cfg/*.cfg`, `MSF_DistortConfig.h` (generated code of that kind) |
| `CoreConfig.v` | the parameters of the core under dynamic reconfiguration | `msf_core/cfg/MSF_Core.cfg`, `msf_sensormanagerROS.h` |
| `ConfigFiles.v` | the shipped parameter files, the parameters and topics of the nodes, the launch files | `msf_updates/*.yaml`, `launch/*.launch`, the sensor managers and handlers |
| `Compass.v` | the script that sets the initial yaw from a compass, beside a node | `msf_updates/src/position_msf/init_yaw_from_compass.py` |
| `Palette.v` | the colour palettes | `msf_core/src/lib/falsecolor.cc` |
| `Relay.v` | the relay node | `msf_distort/src/msf_distort.cc` |
| `Messages.v`, `CovMsg.v`, `ArrayMsg.v` | controller messages; covariances and state arrays in messages | `msf_sensormanagerROS.h`, `msf_IMUHandler_ROS.h`, `msf_state_inl.h`, `similaritytransform.h` |

Specification files: `SortedContainerSpec.v`, `CovSpec.v` (symmetric, positive semidefinite by the quadratic form),
`HandlersSpec.v`, `SensorsSpec.v` (derivative along an error direction), `BatchSpec.v` (a plain filter that
processes everything in time order), `TransitionSpec.v` (continuous error dynamics), `NoiseSpec.v` (noise driving them), `SimilaritySpec.v`.  They use none of the model's
functions apart from the vector algebra of `Geom.v` and, in `BatchSpec.v`, the data types and numeric operations (`ops`) of the
core.  Lemmas are in `*Proofs.v`, `Core{Basics,Inv,Steps,Safety,Queue,Reset}.v`, `Batch.v`, `BatchCor.v`.
`Properties*.v` hold the property theorems, each followed by `Print Assumptions`, and beside them
`Example`s with concrete inputs meeting the hypotheses.

### Modelling decisions (simplifications)

* **Time** is `Z` nanoseconds (the code: `double` seconds made from ROS nanosecond stamps; C62 bounds the difference:
  order is kept for stamps more than 240 ns apart).
  Thresholds 0.01, 0.1, 0.001, 5, 60 s are exact integers; rounding of time arithmetic is not modelled.
  `INVALID_TIME` (-1 s) is an ordinary value, so confusing a real stamp with it is visible.
* **`std::map`** is a list of pairs sorted by key; `find`, `lower_bound`, `upper_bound`, `erase`
  follow the C++ standard.  An iterator is a position inside one call and a key with a validity mark across
  calls.  What decrementing `begin()` does is a parameter `d` of the model (`DecUB` in the standard; `libstdcxx d`
  describes the red-black tree of libstdc++ for sizes 0, 1, 2 and more than 2).  Incrementing or dereferencing `end`, or
  using an iterator to an erased node, is `UB`.
* **Numbers**: no floating point rounding, overflow or signed zero.  Covariance algebra is over any `realFieldType`;
  geometry over Coq's `R`.  Not-a-number is an explicit `option`/predicate where the code branches on it.
  Singular innovation covariances are reported as a separate outcome.
* **Eigen aliasing**: `P = 0.5 * (P + P.transpose())` is evaluated in place, coefficient by coefficient and column by column,
  as Eigen does without a temporary.  With Eigen's run-time aliasing assertion enabled the line would stop the program; it is
  taken to be disabled.
* **Shared state**: function-static variables (`last_am`, `janitorRun`, `referenceinit`) are fields of the model state that survive `Init`.
* **Threads**: the callbacks run in one ROS spinner thread; the model is sequential.
* **External constants**: `DEG2RAD` is not defined in the repository, taken as pi/180.
* **Inputs of the covariance prediction**: noise densities are constant over the three axes, as the code sets them.
* **Left out**: the text of log messages, ROS transport, the `usleep` in `Init`, test programs, the layout of plots and the figure exporter matfig2pgf, `sensor_fusion.launch` (of another package).

## 2. Properties: model, status, proof method

"refuted" means that a theorem named `..._refuted` gives a witness against the statement, or against a reading of
it, in the model; "partial" that the remaining part is proved and what is missing is said at the theorem.

* **C01** (proved) Buffer stays sorted with one entry per time stamp. *Method:* `SortedContainer.v`; invariants over operation histories, specification by `In`, sortedness and distance only. Induction over every history of buffer operations
* **C02** (partial) Closest-in-time lookup returns the true nearest object. *Method:* `SortedContainer.v`; invariants over operation histories, specification by `In`, sortedness and distance only. Proved for the value query and the iterator query; sentinel time -1 s and the two-element buffer under libstdc++ are refuted.
* **C03** (partial) Before/after lookup brackets the query time. *Method:* `SortedContainer.v`; invariants over operation histories, specification by `In`, sortedness and distance only. GetClosestBefore returns the oldest element when nothing is older (proved, and the stronger claim refuted).
* **C04** (proved) Age-based clean-up only forgets old data. *Method:* `SortedContainer.v`; invariants over operation histories, specification by `In`, sortedness and distance only. For every buffer, age and history
* **C05** (proved) Moving an object in time loses nothing else. *Method:* `SortedContainer.v`; invariants over operation histories, specification by `In`, sortedness and distance only. Free target time, occupied target time, absent source
* **C06** (partial) No buffer query performs undefined iterator arithmetic. *Method:* `SortedContainer.v`; invariants over operation histories, specification by `In`, sortedness and distance only. Every iterator query is defined exactly on non-empty buffers under the behaviour of the libstdc++ tree (C06_libstdcxx_defined_partial); undefined for every inexact query under the wording of the C++ standard (C06_strict_refuted).
* **C07** (proved) Measurements and IMU data are ignored until the filter is initialised. *Method:* `Core.v`; step invariants and induction over call sequences, for every instance of `ops`. Every call sequence without an initialisation is the identity on an uninitialised filter and publishes nothing
* **C08** (partial) Initialisation starts from a clean slate. *Method:* `Core.v`; step invariants and induction over call sequences, for every instance of `ops`; relational induction over the continuation in `CoreForget.v`, in which the remembered accelerations are overwritten by the first plausible reading. Clean slate proved. Exactly three function statics survive (C08_only_statics): with these equal everything afterwards is the same. With equal clean-up counters nothing of the past shows when every acceleration spike comes after a plausible reading since the initialisation (C08_forgets_first_partial). Refuted without these: a spike as the first reading uses the acceleration remembered from before (C08_forgets_refuted), and the surviving counter makes the first measurement drop old states (C08_counter_refuted).
* **C09** (partial) A large backwards jump of the IMU clock, and nothing else in the IMU path, resets the filter. *Method:* `Core.v`; step invariants and induction over call sequences, for every instance of `ops`. Exact iff for reachable filters under the hypothesis that predicted positions are numeric; without that hypothesis 'nothing else resets' is refuted by a non-numeric position
* **C10** (proved) Measurements outside the buffered time span do not touch the estimate. *Method:* `Core.v`; step invariants and induction over call sequences, for every instance of `ops`. Both directions, for every filter state with a sorted state buffer (sortedness is proved for every execution)
* **C11** (proved) Pending measurements are never lost or duplicated, and are handled in arrival order. *Method:* `Core.v`; step invariants and induction over call sequences, for every instance of `ops`. One message takes at most the head; conservation as a permutation over any execution without re-initialisation or reset; draining counted in published propagations
* **C12** (partial) Delay compensation: late measurements give the same estimate as timely ones. *Method:* `Core.v` against `BatchSpec.v`; refinement to a filter that processes everything in time order, induction over sessions. Refinement to a plain time-ordered filter for every session, delay and arrival order (measurements at IMU stamps or interpolated between), total (no UB). Refusable measurements must arrive in stamp order: without that the claim is false (C12_full_refuted).
* **C13** (partial) Every accepted measurement is fused exactly once. *Method:* `Core.v` against `BatchSpec.v`; refinement to a filter that processes everything in time order, induction over sessions. Proved for every undisturbed session of the logging instance; false in general: equal stamps, two measurements attached to one state, and a refused late measurement (C13_*_refuted).
* **C14** (proved) A measurement is only fused with a state within 0.1 s of its time stamp. *Method:* `Core.v`; step invariants and induction over call sequences, for every instance of `ops`. 0.1 s always; 1 ms whenever two numeric neighbours with valid stamps enclose the time
* **C15** (partial) The filter never uses an invalidated iterator or steps outside its buffers. *Method:* `Core.v`; step invariants and induction over call sequences, for every instance of `ops`. Full statement refuted by two call sequences; proved for all executions inside an explicit envelope (IMU gaps at start, lateness below 59.9 s)
* **C16** (partial) Covariance bookkeeping: published covariance is propagated to the published state. *Method:* `Core.v` against `BatchSpec.v`; refinement to a filter that processes everything in time order, induction over sessions. Published update = newest state in every execution; in undisturbed sessions it is the plain filter's value and covariance at its own time. False when a late measurement is refused (C16_refused_late_refuted).
* **C17** (proved) Accelerometer spikes never reach the state buffer. *Method:* `Core.v`; step invariants and induction over call sequences, for every instance of `ops`. For the buffered and the published states, real vectors, all other numeric operations arbitrary
* **C18** (proved) Measurement updates keep the covariance symmetric and positive semidefinite. *Method:* `Cov.v`; MathComp linear algebra for all dimensions, semidefiniteness by the quadratic form. Every size, over every real field; includes that the innovation covariance is invertible
* **C19** (proved) Measurement updates never increase uncertainty. *Method:* `Cov.v`; MathComp linear algebra for all dimensions, semidefiniteness by the quadratic form. Every size, over every real field
* **C20** (partial) Outlier rejection leaves the filter untouched. *Method:* `Cov.v`, `Filter.v`; MathComp linear algebra for all dimensions, semidefiniteness by the quadratic form. The gate is exact for numeric residuals and state and covariance are untouched on rejection (C20_gate). For the measurements of the repository (C20_position, C20_pose, C20_pressure, C20_distance, C20_angle) the covariance loses the cross covariances of the variables held fixed before the gate is evaluated, also when the measurement is then rejected; so it is not untouched then (C20_untouched_refuted; C20_untouched_partial without fixed variables). The not-a-number clause is refuted (such a residual is applied).
* **C21** (partial) Covariance propagation keeps the covariance symmetric and positive semidefinite. *Method:* `Predict.v`, `ProcNoise.v`, `QCore.v`; entry-wise `field` on the generated formulas, sum-of-squares decomposition, quadratic forms. `FlightNoise.v`, `FlightProofs.v`, `PropertiesFlight.v`: the gyroscope part of every entry split into leading order (a square but for three assignments missing in the code) and a bounded rest, weighted against the accelerometer part. `RestProofs.v`, `PropertiesRest.v`: a direction in which the form is negative at rest. All of PredictProcessCovariance and CalcQCore modelled (every generated local and every assignment). False as stated: hovering at rest with the usual noise the predicted covariance is not symmetric, turning at 2 rad/s over a one second gap it has a negative variance (_refuted theorems). Proved: which steps keep covariances is decided by the core process noise alone; it is one when n_ba^2 dt^2 <= 9 n_a^2 and either the gyroscope noise is zero or there is no rotation and no specific force. With all noise sources, in ordinary flight (steps up to 50 ms, up to 0.05 rad per axis and step, 20 n_w^2 |a|^2 <= n_a^2, which the noise shipped for the position sensors meets up to 14 m/s^2) any number of predictions keeps the quadratic form nonnegative, so no variance turns negative; without rotation the noise is symmetric exactly when the force projected on the body y-z plane is parallel to the first two rows of the attitude matrix. The noise shipped for the pose sensor does not meet that, and at rest with the IMU on its side its prediction over 5 ms from certainty is not positive semidefinite (C21_rest_refuted), nor is it with any noise whose accelerometer density is at most 8 times that of the gyroscope and whose bias densities are no larger (C21_rest_any_refuted).
* **C22** (proved) Covariance propagation over a non-positive time step is refused. *Method:* `Predict.v`, `ProcNoise.v`, `QCore.v`; entry-wise `field` on the generated formulas, sum-of-squares decomposition, quadratic forms. Both for the full prediction with its matrices and for the prediction inside the core machine; a positive step moves the bookkeeping time and leaves everything else of both states alone.
* **C23** (partial) The relative (stochastic cloning) update keeps the covariance symmetric positive semidefinite. *Method:* `Cov.v`; MathComp linear algebra for all dimensions, semidefiniteness by the quadratic form. Proved for semidefinite joint covariances and for one prediction between the states; refuted for two predictions in between (wrong product order) and for an absolute update in between, where the assembled matrix is no covariance
* **C24** (partial) Accumulated state transition composes the per-step transitions in time order. *Method:* `Cov.v`; MathComp linear algebra for all dimensions, semidefiniteness by the quadratic form. Refuted: the product has later steps on the right; true when the transition matrices commute
* **C25** (partial) The initial covariance is symmetric. *Method:* `Cov.v`; MathComp linear algebra for all dimensions, semidefiniteness by the quadratic form. Symmetry is refuted (the table is not symmetric and the in-place averaging does not make it so), positive diagonal is refuted (gyroscope biases); semidefiniteness, the remaining diagonal and the auxiliary block are proved
* **C26** (proved) Error-state and state indices tile the vectors exactly. *Method:* `StateList.v`; induction over the list of variables. `Ordering.v` for the assertions on the order of the core variables. Tiling of both vectors for every list without duplicate names; the compile-time lookup's error code for absent names is refuted to be detectable. The compile-time assertions on the order of the core variables hold exactly if p, v, q, b_w, b_a come first in this order (C26_core_order), given their widths, which they do not check (C26_core_order_widths_refuted).
* **C27** (partial) Corrections reach exactly the state they belong to. *Method:* `StateList.v`; induction over the list of variables. Own segment and independence of other segments for every list; refuted for a quaternion declared multiplicative (option ignored)
* **C28** (proved) The non-drifting reference used for failure detection is chosen correctly. *Method:* `StateList.v`; induction over the list of variables. For every list
* **C29** (proved) Propagation copies exactly the non-propagated states. *Method:* `StateList.v`; induction over the list of variables. For every list and value
* **C30** (proved) Process noise of auxiliary states lands on their own diagonal block. *Method:* `StateList.v`; induction over the list of variables. For every list; core blocks untouched
* **C31** (proved) Fixed IMU biases stay fixed. *Method:* `StateList.v`; induction over the list of variables. For every standard-layout list, state and correction
* **C32** (partial) States declared fixed are not moved by updates. *Method:* `SensorsCov.v`; rows of the gain, using that cleared covariances and zero columns decouple. Pose (absolute and relative) and position measurements: every entry of the correction that belongs to a fixed variable is zero and the variable comes out unchanged, for any layout, covariance, residual. False for the spherical sensor, whose measurement matrix keeps the columns of the fixed lever arm (C32_distance_refuted).
* **C33** (proved) Small-angle quaternions are unit quaternions and attitude stays normalised. *Method:* `Geom.v`, `Propagate.v`; `field`/`nra`, matrix power identities, alternating-series bounds. Small-angle, correction, prediction (unconditional for any non-zero attitude), and lifted to every execution of the filter machine with any sensors
* **C34** (partial) Attitude prediction follows the gyroscope to the order it claims. *Method:* `Geom.v`, `Propagate.v`; `field`/`nra`, matrix power identities, alternating-series bounds. The claimed series is refuted (powers 1,2,4,8); what is computed is characterised exactly and its error bounded for constant rates
* **C35** (proved) Prediction integrates constant specific force exactly. *Method:* `Geom.v`, `Propagate.v`; `field`/`nra`, matrix power identities, alternating-series bounds. For every state, reading and step split
* **C36** (proved) Fuzzy-tracking detector memory is well behaved. *Method:* `Fuzzy.v`; invariant over sequences of checks; any partition `nth_element` may leave. Over every sequence of checks and resets; the whole update is covered by C36_update_restores
* **C37** (proved) Median is a true middle element. *Method:* `Fuzzy.v`; invariant over sequences of checks; any partition `nth_element` may leave. For every admissible outcome of nth_element
* **C38** (partial) Measurement matrices are the derivatives of the measurement predictions. *Method:* `Sensors.v`; derivatives of residuals along every error direction against the matrices; algebra at the initial state. The derivative of every residual along every error direction is compared with the measurement matrix. It agrees for the position and pressure sensors and the attitude rows of the pose sensor; the p_wv block of the pose sensor, the distance and angle sensors, the yaw row and the relative attitude residual do not match (refuted with witnesses); the partial theorems give the cases in which they do.
* **C39** (partial) Initialisation is consistent with the first measurement. *Method:* `Sensors.v`; derivatives of residuals along every error direction against the matrices; algebra at the initial state. Zero-residual start proved for position, pose and distance sensors; pressure, position_pose and angle sensors fail in the cases given by the refutations and hold outside them.
* **C40** (partial) Pose throttling guarantees a minimum spacing. *Method:* `Handlers.v`; induction over message or sample sequences. Spacing and acceptance characterised for every message sequence; "at least" fails at equality (C40_boundary_refuted) and increase fails for spacings below 1 ms (C40_small_spacing_refuted); a clock set back blocks poses until it catches up (C40_clock_set_back).
* **C41** (partial) GPS conversion is a rigid local frame. *Method:* `Gps.v`; rotations over the reals, case analysis of the matrix-to-quaternion conversion. Reference zero, isometry, east/north/up axes and heights proved for all references and points (with Eigen's matrix-to-quaternion conversion). The height adjustment moves the reference along the earth axis: exact effect proved (C41_adjust_partial), requested effect refuted except at the pole; a second handler has no reference (C41_second_handler_refuted).
* **C42** (partial) Barometer averaging is the mean of the last ten readings. *Method:* `Handlers.v`; induction over message or sample sequences. Mean of the last ten readings once ten have been seen (C42_average_partial); refuted during start-up, and the value handed on is not that mean (C42_handed_refuted, C42_copy_refuted).
* **C43** (proved) Correction messages reproduce the filter state. *Method:* `Messages.v`, `CovMsg.v`; algebra and index arithmetic. Exact in real arithmetic (32-bit message fields not modelled). Before the first controller state was received the correction is refuted to be meaningful.
* **C44** (partial) Covariance message blocks are laid out as documented. *Method:* `Messages.v`, `CovMsg.v`; algebra and index arithmetic. Layout, symmetry, semidefiniteness and roundtrip proved for symmetric covariances; for asymmetric ones Eigen's column-major map publishes and reads the transpose (refuted).
* **C45** (partial) Timing statistics are those of the recorded samples. *Method:* `Handlers.v`; induction over message or sample sequences. Count, sum, mean, rolling mean, variance and minimum proved for all sample sequences; the maximum only for positive samples (C45_maximum_partial), refuted otherwise; exactly when it is right: C45_maximum_exact.
* **C46** (partial) Sequence watchdog and sensor identities. *Method:* `Handlers.v`; induction over message or sample sequences. Identifiers proved for every registration order; the watchdog is exact except after numbers 0 and 2^31-1, where it is refuted.
* **C47** (proved) A prediction does not depend on leftovers of earlier predictions. *Method:* `Predict.v`, `ProcNoise.v`, `QCore.v`; entry-wise `field` on the generated formulas, sum-of-squares decomposition, quadratic forms. For states used as the older state of any number of predictions with any noise settings; equality of covariance, transition and noise matrix with those computed from freshly constructed matrices.
* **C48** (proved) The transition matrix integrates the error dynamics. *Method:* `ProcNoise.v`; block-wise differentiation (Coquelicot); entry-wise `field`. For the transition matrix written by PredictProcessCovariance on a fresh state with the core variables first. The splitting clause is for zero rate; C48_split_turning_refuted shows that it needs that hypothesis.
* **C49** (partial) The process noise does not depend on the choice of units. *Method:* `ProcNoise.v`; block-wise differentiation (Coquelicot); entry-wise `field`. Length units: proved for all entries. Time units: false as stated, the gyroscope noise enters the (p,v), (v,v) and (v,q) blocks with the wrong power of dt (C49_time_unit_refuted, witness: hovering); proved for all other blocks and, with zero gyroscope noise, for all blocks.
* **C50** (proved) Every state of every execution is well formed. *Method:* `Filter.v` (integrated filter as an instance of the core machine); invariant over every call (`run_good`), closed under propagation, prediction, correction and replay. Whole filter (Filter.v): core machine, state variables, covariance prediction and the five measurement models in one execution. Assumes well-formed initial states and unit external attitudes. Executions in which the core itself aborts or is undefined (C15) have no final state to speak of.
* **C51** (proved) The fixed-bias option keeps the biases through whole executions. *Method:* `Filter.v` (integrated filter as an instance of the core machine); invariant over every call (`run_good`), closed under propagation, prediction, correction and replay. Over whole executions of the integrated filter, all four shipped state lists, mixed measurements.
* **C52** (proved) The visual scale never becomes negative. *Method:* `Filter.v` (integrated filter as an instance of the core machine); invariant over every call (`run_good`), closed under propagation, prediction, correction and replay. Over whole executions; a negative corrected scale is replaced by 0.1 before the state is kept. Not-a-number states are excluded by the statement.
* **C53** (proved) Variables declared fixed keep their initial value through whole executions. *Method:* `Filter.v` (integrated filter as an instance of the core machine); invariant over every call (`run_good`), closed under propagation, prediction, correction and replay. C53_position_fixed: antenna position, position measurements only; C53_pose_fixed: each of the five pose variables, pose measurements only. A fixed scale must start non-negative.
* **C54** (partial) Every covariance of every execution is a covariance. *Method:* `Filter.v` (integrated filter as an instance of the core machine); invariant over every call (`run_good`), closed under propagation, prediction, correction and replay. False with gyroscope noise: after the first IMU reading of a hovering vehicle the covariance is not symmetric (C54_covariance_refuted, C54_full_refuted; cause in C21). Proved for accelerometer noise only; then filters that get position and pressure measurements only never become not-a-number (C54_numbers_partial).
* **C55** (partial) The process noise is the integral of the noise the transition matrix spreads. *Method:* `NoiseSpec.v` (noise injection, rate, integral); closed forms of all 225 entries by `field`, derivative and mean value theorem (Coquelicot). False with gyroscope noise: hovering, the velocity/attitude entry differs in first order of the step (C55_gyro_refuted, C55_full_refuted). Proved exactly for accelerometer noise and, outside the blocks (p,p), (p,v), (v,p), accelerometer bias noise; for all noise but the gyroscope's the difference is at most a multiple of the cube of the step.
* **C56** (partial) A pose sensor that publishes the inverse of its pose is read as its pose. *Method:* `Sensors.pose_reading` against rigid motions (`moved`); quaternion algebra. False with a fixed covariance: the handler then never inverts (C56_fixed_refuted, C56_full_refuted). Proved for covariances taken from the sensor, and for sensors that publish their own pose.
* **C57** (partial) Every measurement handed to the filter has positive definite noise. *Method:* `Readings.v` (message to measurement); block-diagonal and rotated quadratic forms. False for covariances taken from the sensor, which are not checked (C57_position_refuted, C57_pose_refuted). Proved for every fixed nonzero noise setting of all five sensors, and for sensor covariances that are themselves symmetric and positive definite. The values of the noise are given entry by entry (C57_fixed_values, C57_sensor_values).
* **C58** (proved) State arrays hold every number of the state in its place. *Method:* `ArrayMsg.v` (the assignments carried out on the array); induction over the list with the start indices of C26. The core arrays need the core variables to come first in the list, which no static assertion checks; without that they are written out of bounds (C58_core_order_refuted). All shipped lists have that order.
* **C59** (partial) The average similarity transform is the best fit and exact on exact data. *Method:* `Similarity.v`, `SimilaritySpec.v`; normal equations, pseudo-inverse from the singular value decomposition, Rayleigh quotient. Needs every singular value of the normal matrix to be at least eps; for every eps there are exact data with motion for which the scale comes out as zero (C59_small_motion_refuted, C59_full_refuted). C59_enough_motion says when the singular values are positive. Eigen's decompositions are parameters with their documented properties as hypotheses. C59_condition: the reported condition number is the ratio of the largest to the smallest amplification of the normal matrix, and missing exactly when all pairs have the same position.
* **C60** (proved) A tag reports the statistics of exactly the times its timers measured. *Method:* `Timers.v`, `TimersSpec.v`; simulation between the machine and a sheet of notes over the events, by induction. Fewer than 2^31 events. Stronger claims are refuted: a timer that never ran adds the time since the epoch when stopped, stopping twice counts twice, and the table prints a time only modulo one minute.
* **C61** (partial) Distorted poses follow the drawn random walk. *Method:* `Distort.v`, `DistortSpec.v`; induction over the messages. The walk and the constant drift are proved for a process with one distorted pose sensor and non-zero stamps; with two sensors both fail, because the time of the last message is a static variable that all of them share (C61_two_sensors_refuted); C61_shared says what any number of sensors really do.
* **C62** (proved) Time stamps keep their order and spacing as doubles. *Method:* `Stamps.v`; rounding errors of Flocq formats, Sterbenz. A test of an elapsed time against a constant (C62_threshold) and the choice of the nearer entry (C62_nearer) come out on the doubles as on nanoseconds unless within 241, respectively 480, nanoseconds; inside that band they can differ (C62_threshold_refuted). Binary64 arithmetic from Flocq; the conversions are those of ros::Time, which is not part of the repository. Distinctness and exact republishing are refuted: stamps 100 ns apart become one double (C62_distinct_refuted, C62_published_refuted). A test of an elapsed time against a constant (C62_threshold) and the choice of the nearer entry (C62_nearer) come out on the doubles as on nanoseconds unless within 241, respectively 480, nanoseconds; inside that band they can differ (C62_threshold_refuted).
* **C63** (partial) A relative measurement is compared with the previous one of its own sensor. *Method:* `Previous.v`; induction on the iterator position. Sound for every buffer with libstdc++; complete except with exactly two buffered measurements, where the first is mistaken for the position before the first (C63_two_refuted). Undefined for a time after all buffered ones (C63_absent) and, by the letter of the standard, for every buffered time (C63_standard_refuted).
* **C64** (partial) Relative measurements in the core. *Method:* `Relative.v`; projection onto `Core.v`; the invariant of C15 carried through the second query; an order lemma for two closest-state queries. The core machine extended by the transitions stored in the states (Relative.v). Inputs, agreement with Core.v and absence of undefined iterator use proved; the last in the envelope of C15 (C64_safe_full fails like C15, C64_safe_refuted). The product does not cover the time between the states when the old state is interpolated for the occasion: its own transition is then the identity (C64_span_refuted; needs a gap of more than 0.2 s between states). The order of the product is C24_refuted.
* **C65** (partial) Which sensor messages reach the filter. *Method:* `Node.v`; induction over sessions of messages. Exact characterisation of what each handler hands on, over sessions. The first-measurement flag of the pose handler is set before the throttle, so it needs stamps beyond the minimum interval (C65_flag_refuted: simulated time near zero); that of the position handler is set by messages that are dropped for lack of a covariance (C65_position_flag_refuted). Topics share one sequence counter, so the watchdog warns although nothing is lost (C65_shared_counter_refuted).
* **C66** (partial) Whole nodes keep the filter well formed. *Method:* `Node.v`; invariant of the front, simulation of the node by a run of the core, then C50-C53; the safety invariant of C15 for the core part. Nodes = front (handlers and managers) followed by the core; invariants of the front lifted through C50-C53 and C15. Refuted parts: the position-pose manager does not normalise the derived vision attitude (C66_unit_refuted); a height request with a pose below the origin starts with a negative scale (C66_scale_refuted; C66_scale_above for poses above the origin); initial covariances are never symmetric (C66_covariance_refuted); the pose-pressure manager reads an unset member when asked to initialise before the first height (C66_defined_refuted) and a counter overflows at INT_MAX (C66_counter_refuted); a refused height request drops the noise settings (C66_settings_refuted); a height request while the pose has height zero starts with not-a-number (C66_height_refuted, C66_height_partial). Absence of undefined behaviour in the core only in the envelope of C15. The initial state explains the readings it was made of (C66_consistent) and is at rest with the accelerometer reading of a platform at rest (C66_rest); the managers use 9.81 m/s^2 and the propagation 9.80834 m/s^2, so the first steps drift (C66_rest_refuted, C66_rest_partial).
* **C67** (partial) The evaluation tool compares synchronised poses and reports true errors. *Method:* `Eval.v`; the loop over two iterators is shown equal to a visit of the list of pairs, then induction with an invariant giving state and rows after any prefix; group laws of rigid motions; simulation between moved and original recordings; real trigonometry. Rows characterised exactly; errors given by the trace of the relative rotation and the gravity directions. The alignment is taken from the first pair compared even if its stamps are a second apart, so perfect synchronised estimates can have errors (C67_exact_refuted; C67_exact_partial when all compared pairs agree). The first estimate that is not older is used, not the closest one (C67_closest_refuted). A recording that cannot be synchronised ends with exit code 0 (C67_exit_refuted).
* **C68** (partial) Reconfiguration keeps settings in range and starts the filter when asked. *Method:* `Reconfigure.v`; every request is an input of the node of C66 within the ranges, so the session is a run of that node; induction over the session for the flags and ranges. The server is modelled after the generated code for a .cfg file and the documented protocol of dynamic_reconfigure (which is not in the repository): parameters are merged, clamped, compared with the old ones and given to the managers. Refuted part: a height request refused for lack of a position leaves its flag set on the server, so a repeated request changes nothing and is ignored until a client clears the flag (C68_retry_refuted, C68_stuck; C68_retry_partial when no flag is left). The real-number model has no NaN, which the generated comparisons would let pass.
* **C69** (partial) The compass script starts the filter with the heading of the compass. *Method:* `Compass.v`; induction over the session, the attitude from C66 and atan2 by cases. For the position and position-pose nodes (the parameter of the spherical node has another name). The library functions follow their documentation. Refuted parts: headings beyond half a turn are replaced by the nearest bound instead of being wrapped (C69_radians_refuted, C69_radians_partial and C69_degrees_partial up to half a turn); the topic with quaternions never gives a heading because the message is passed where a list is expected (C69_quaternion_refuted, C69_silent). Signed zeros and not-a-number are left out.
* **C70** (partial) Colour palettes are complete and of the intended shape. *Method:* `Palette.v`; loop invariants over the filling loops, monotonicity and concavity of the logarithm, bounds of sine. Real arithmetic instead of float and double: at a value that is exactly an integer rounding could give the one below. Refuted part: the blue channel of the last palette is shifted by one place too few (nvals - 1 - cntblue instead of nvals - cntblue), so its humps are not evenly spaced (C70_even_refuted) and the palette is not the same from both ends (C70_mirror_refuted, C70_mirror_shifted).
* **C71** (proved) The relay passes on what its switches let through. *Method:* `Relay.v`; induction over the event sequence, and over two related ones. Queues are taken never to overflow.
* **C72** (partial) The evaluation plots show the errors per stretch of the way. *Method:* `EvalPlot.v`; integer parts, insertion sort and linear interpolation over the reals. Real arithmetic; max, mean, sort, prctile and errorbar as documented by Matlab. Bins, values, places and the shift of paths are characterised exactly. Refuted parts: rows on a border are counted nowhere (C72_border_refuted); the percentiles are 0.05 and 0.95 percent instead of 5 and 95, with up to 52 rows both the least error (C72_both_least, C72_upper_refuted); errorbar is given the percentiles where it takes lengths (C72_drawn); errors are divided by the middle of the bin, not by the distance of the row (C72_relative, C72_relative_refuted); the curve labelled trace 3 sigma is the sum of the standard deviations, between one and sqrt 3 times the root of the trace (C72_three_sigma).
* **C73** (proved) The quaternion matrices, message conversions and short time stamps say what their comments say. *Method:* `EigenUtils.v`; ring identities over arbitrary components, and uniqueness of the remainder for the time stamps. Real arithmetic; matrices written by rows, quaternion vectors in the order x y z w. The specification of the product is by scalar and vector parts and independent of the model.
* **C74** (partial) The type traits strip and add const, references and pointers. *Method:* `TypeTraits.v`; the specialisations as tables over a grammar of types; case analysis, induction for SameType. Argument deduction, reference collapsing and the partial ordering of specialisations follow C++11; the tables are those of the header. Refuted parts: rvalue references are not stripped and AddConstReference makes of one a reference to non-const (C74_strip_refuted, C74_add_refuted); a pointer that is const itself counts as no pointer (C74_const_pointer_refuted). None of the uses in the repository has such a type.
* **C75** (partial) The logging macros print once, at the rate, or on condition. *Method:* `Logging.v`; the static variables after any sequence of uses by induction, then arithmetic on whole seconds. The macros for builds without ROS. Printing is characterised exactly (C75_once, C75_cond, C75_throttle). Refuted parts: since the clock is cut to whole seconds, two prints can be a nanosecond apart at a rate of one second (C75_spacing_refuted; C75_spacing bounds the shortfall by a second), and with a rate that is no whole number of seconds a due print can be lost (C75_no_loss_refuted; C75_no_loss otherwise); a clock set back silences the place (C75_clock_back).
* **C76** (partial) Core parameters stay in their ranges under reconfiguration, and predictions survive it. *Method:* `CoreConfig.v`; induction over the session, the nearest value of a range being unique; induction over reconfigured flights with C21_flight_partial at each step. The parameter server of MSF_Core.cfg and the getters. The ranges hold after every session and every parameter is the nearest allowed value to the one asked for last. The ranges do not make the conditions of C21 hold: the bias noise over a step of 10 ms can exceed the noise itself (C76_bias_noise_refuted; up to 1 ms it cannot, C76_bias_noise), and the defaults meet them only below 1.2 m/s^2 (C76_default_noise). C76_flight carries C21 through reconfigurations during flight, under those conditions. With the defaults the prediction at rest on the side is not positive semidefinite (C76_rest_refuted).
* **C77** (partial) Every setting of the shipped configuration files is read by the node it is launched with. *Method:* `ConfigFiles.v`; the lines, the reads with their handles and the name resolution as data, an exact condition for a line without effect by case analysis on the last writer of a name, carried over node names by prefixes; induction over digits for the scientific notation. False of the shipped files. Proved for every node name which lines are without effect, whatever value is written there (C77_*_file, from the exact condition C77_without_effect), that every other line is read, and which texts YAML 1.1 takes for numbers (C77_float, C77_int, C77_scientific, C77_values). Refuted: the accelerometer bias noise 8e-5 has no point, is a string, and leaves the default (C77_bias_noise_refuted); data_playback is set in the wrong namespace (C77_playback_refuted); viconpos_sensor_fix.yaml names the node and is launched under another name, and aslam_sensor_fix.yaml does not exist (C77_launch_refuted). Of the remappings exactly one, msf_distort/position_input, is without effect in any namespace (C77_launch_remaps), and the position-pose node subscribes twice to transform_input (C77_shared_topic_refuted); the topics of the other nodes are distinct. Services, and the old sensor_fusion.launch of another package, are left out.

No property was found to be inexpressible.  Not claimed: convergence or optimality of the filter, real-time
behaviour, floating-point error bounds, data races.

## 3. Trusted base

* The Coq 8.16.1 kernel (`vm_compute` is used in some proofs; `coqchk` rechecks them without it).
* The faithfulness of the models to the C++ text.  `QCore.v` was transcribed by a script from `calcQCore.h`; the others by hand.
* Axioms: only those of the Coq standard library listed in section 5.  MathComp, Coquelicot and Interval add none of their own to these theorems.

## 4. Mutation tests

Model definitions were edited one at a time in a copy of the development outside this repository and everything depending
on them was rebuilt; failing proofs were admitted in the copy to see all theorems affected.  `seeded/LOG.jsonl` has one line per
attempt.  `theorems_failed` lists the property theorems whose proof no longer goes through, or that rest on a lemma whose
proof does not; that a proof breaks is taken as detection, the theorem need not have become false.  `status` is
`detected`, `survived` (everything still compiles) or `inconclusive` (a file ran into the time limit or could not be repaired; `not_checked` names it and the files
after it).  `claim_theorem_failed` tells whether a theorem of the claim the edit is aimed at is among them.

## 5. Print Assumptions per theorem

Abbreviations: **S** `ClassicalDedekindReals.sig_forall_dec`, **N** `ClassicalDedekindReals.sig_not_dec`, **F** `FunctionalExtensionality.functional_extensionality_dep`, **C** `Classical_Prop.classic`, **E** `ClassicalEpsilon.constructive_indefinite_description`; "closed" is "Closed under the global context".
All five are axioms of the Coq standard library.

| theorem | assumptions |
|---|---|
| `C01_sorted_unique` | closed |
| `C01_insert_free` | closed |
| `C01_insert_occupied` | closed |
| `C01_echo` | closed |
| `C02_closest_value_partial` | closed |
| `C02_closest_value_sentinel_refuted` | closed |
| `C02_closest_iterator_partial` | closed |
| `C02_closest_iterator_two_refuted` | closed |
| `C02_queries_agree_partial` | closed |
| `C02_nearest_unique` | closed |
| `C03_after` | closed |
| `C03_before_partial` | closed |
| `C03_before_none_older` | closed |
| `C03_before_refuted` | closed |
| `C03_first_last_at` | closed |
| `C04_clear_older_than` | closed |
| `C04_clear_defined` | closed |
| `C05_move` | closed |
| `C05_missing` | closed |
| `C05_collision` | closed |
| `C06_closest_iterator_defined` | closed |
| `C06_strict_refuted` | closed |
| `C06_libstdcxx_defined_partial` | closed |
| `C07_ignored_until_init` | closed |
| `C08_clean` | closed |
| `C08_forgets_partial` | closed |
| `C08_forgets_refuted` | closed |
| `C08_only_statics` | closed |
| `C08_forgets_first_partial` | closed |
| `C08_counter_refuted` | closed |
| `C09_reset_iff_backwards_partial` | closed |
| `C09_silent_after_reset` | closed |
| `C09_nothing_else_refuted` | closed |
| `C10_future_is_queued` | closed |
| `C10_too_old_is_dropped` | closed |
| `C10_hypotheses_reachable` | closed |
| `C11_one_per_message` | closed |
| `C11_nothing_lost` | closed |
| `C11_drains` | closed |
| `C12_delay_compensated_partial` | closed |
| `C12_arrival_order_irrelevant_partial` | closed |
| `C12_full_refuted` | closed |
| `C13_once_each_partial` | closed |
| `C13_same_stamp_refuted` | closed |
| `C13_same_state_refuted` | closed |
| `C13_refused_before_refuted` | closed |
| `C13_full_refuted` | closed |
| `C14_state_is_near` | closed |
| `C15_safe_partial` | closed |
| `C15_refuted` | closed |
| `C16_published_is_newest` | closed |
| `C16_published_propagated_partial` | closed |
| `C16_refused_late_refuted` | closed |
| `C17_no_spikes_buffered` | S N F |
| `C18_update_keeps_covariance` | closed |
| `C19_update_shrinks` | closed |
| `C20_gate` | closed |
| `C20_distance_defined` | closed |
| `C20_disabled` | closed |
| `C20_nan_accepted` | closed |
| `C20_nan_refuted` | closed |
| `C20_position` | S N E C F |
| `C20_pose` | S N E C F |
| `C20_pressure` | S N E C F |
| `C20_distance` | S N E C F |
| `C20_angle` | S N E C F |
| `C20_untouched_partial` | S N E C F |
| `C20_untouched_refuted` | S N E C F |
| `C21_flight_partial` | S N E C F |
| `C21_no_negative_variance_partial` | S N E C F |
| `C21_shipped_partial` | S F |
| `C21_symmetric_iff_partial` | S F |
| `C21_keeps_partial` | S E C F |
| `C21_core_noise_decides_partial` | S E C F |
| `C21_symmetric_refuted` | S E C F |
| `C21_semidefinite_refuted` | S E C F |
| `C21_full_refuted` | S E C F |
| `C21_rest_any_refuted` | S E C F |
| `C21_rest_refuted` | S E C F |
| `C22_refused` | S E C F |
| `C22_core_refused` | closed |
| `C22_accepted` | S E C F |
| `C23_relative_keeps_covariance` | closed |
| `C23_predicted_pair` | closed |
| `C23_two_predictions_refuted` | closed |
| `C23_absolute_between_refuted` | closed |
| `C24_commuting_partial` | closed |
| `C24_reversed` | closed |
| `C24_refuted` | closed |
| `C25_ideal_partial` | closed |
| `C25_actual_partial` | closed |
| `C25_never_symmetric` | closed |
| `C25_symmetric_refuted` | closed |
| `C25_diagonal_refuted` | closed |
| `C26_core_order` | closed |
| `C26_core_present` | closed |
| `C26_core_order_widths_refuted` | closed |
| `C26_tiles_error_state` | closed |
| `C26_tiles_state` | closed |
| `C26_enum_is_position` | closed |
| `C26_lookup_error_code_refuted` | closed |
| `C26_core_prefix` | closed |
| `C27_own_segment` | S N F |
| `C27_other_segments_irrelevant` | S N F |
| `C27_quaternion_options_refuted` | S N F |
| `C28_best_reference` | closed |
| `C29_non_propagated_copied` | S N F |
| `C29_propagated_values` | S N F |
| `C29_init_copies_only_set` | closed |
| `C30_noise_blocks` | closed |
| `C31_fixed_bias` | S N F |
| `C32_pose` | S E C F |
| `C32_position` | S E C F |
| `C32_pose_relative` | S E C F |
| `C32_pose_state` | S N E C F |
| `C32_position_state` | S N E C F |
| `C32_distance_refuted` | S N E C F |
| `C33_small_angle_unit` | S N F |
| `C33_correction_unit` | S N F |
| `C33_prediction_unit` | S N F |
| `C33_all_executions` | S N F |
| `C34_series_refuted` | S F |
| `C34_actual_series_partial` | S F |
| `C34_increment_partial` | S N F |
| `C34_accuracy_partial` | S N C F |
| `C35_constant_acceleration` | S N F |
| `C35_split_step` | S N F |
| `C35_rest` | S N F |
| `C36_safe` | S F |
| `C36_rows` | S F |
| `C36_memory` | S F |
| `C36_decision` | S F |
| `C36_threshold` | S F |
| `C36_restores` | S F |
| `C36_update_restores` | S N F |
| `C37_median` | S F |
| `C37_any_nth_element` | S F |
| `C37_order` | S F |
| `C38_correction_curve` | S N F |
| `C38_position` | S F |
| `C38_pressure` | S F |
| `C38_pose_position` | S F |
| `C38_pose_position_fixed` | S F |
| `C38_pose_attitude` | S F |
| `C38_pose_attitude_residual` | S F |
| `C38_distance_partial` | S N F |
| `C38_angle_partial` | S N C F |
| `C38_angle_shortest` | S N C F |
| `C38_relative_position` | S F |
| `C38_relative_attitude_sign` | S F |
| `C38_layouts` | closed |
| `C38_pose_position_refuted` | S F |
| `C38_pose_yaw_refuted` | S F |
| `C38_distance_refuted` | S N F |
| `C38_angle_refuted` | S N C F |
| `C38_relative_attitude_refuted` | S N F |
| `C39_position` | S N F |
| `C39_pose` | S N F |
| `C39_pose_pressure_pose` | S N F |
| `C39_pressure` | S N F |
| `C39_pressure_refuted` | S N F |
| `C39_position_pose_partial` | S N F |
| `C39_position_pose_refuted` | S N F |
| `C39_distance` | S N F |
| `C39_angle` | S N C F |
| `C39_angle_refuted` | S N C F |
| `C40_spacing` | closed |
| `C40_increasing` | closed |
| `C40_accepts` | closed |
| `C40_boundary_refuted` | closed |
| `C40_small_spacing_refuted` | closed |
| `C40_clock_set_back` | closed |
| `C41_distances` | S N F |
| `C41_reference` | S N F |
| `C41_axes` | S N F |
| `C41_height` | S N F |
| `C41_ellipsoid` | S N F |
| `C41_adjust_partial` | S N F |
| `C41_adjust_exact` | S N F |
| `C41_adjust_refuted` | S N F |
| `C41_first_fix` | S N F |
| `C41_later_fix` | S N F |
| `C41_second_handler_refuted` | S N F |
| `C42_average_partial` | S F |
| `C42_startup` | S F |
| `C42_startup_refuted` | S F |
| `C42_raw_heights` | S F |
| `C42_handed_refuted` | S F |
| `C42_copy_refuted` | S F |
| `C43_correction` | S F |
| `C43_safe` | S F |
| `C43_before_first_state_refuted` | S F |
| `C43_playback` | S |
| `C43_initial` | S |
| `C43_callback` | S N F |
| `C44_pose_layout` | closed |
| `C44_pose_symmetric` | closed |
| `C44_pose_covariance` | closed |
| `C44_pose_transposed` | closed |
| `C44_pose_refuted` | closed |
| `C44_twist` | closed |
| `C44_twist_covariance` | closed |
| `C44_roundtrip` | closed |
| `C44_write_symmetric` | closed |
| `C44_read_transposed` | closed |
| `C44_read` | closed |
| `C44_read_refuted` | closed |
| `C44_submatrix` | closed |
| `C44_parts` | closed |
| `C45_statistics` | S F |
| `C45_minimum` | S F |
| `C45_maximum_partial` | S F |
| `C45_maximum_exact` | S F |
| `C45_maximum_refuted` | S F |
| `C46_watchdog_partial` | closed |
| `C46_zero_refuted` | closed |
| `C46_overflow_refuted` | closed |
| `C46_identifiers` | closed |
| `C47_no_leftovers` | S E C F |
| `C48_transition_flow` | S N C F |
| `C48_split_still` | S F |
| `C48_split_turning_refuted` | S F |
| `C49_length_unit` | S F |
| `C49_time_unit_partial` | S F |
| `C49_time_unit_refuted` | S F |
| `C50_well_formed` | S N E C F |
| `C51_fixed_bias` | S N E C F |
| `C52_scale_nonneg` | S N E C F |
| `C53_position_fixed` | S N E C F |
| `C53_pose_fixed` | S N E C F |
| `C54_covariance_partial` | S N E C F |
| `C54_numbers_partial` | S N E C F |
| `C54_covariance_refuted` | S N E C F |
| `C54_full_refuted` | S N E C F |
| `C55_accelerometer_partial` | S N C F |
| `C55_integral_exists` | S N C F |
| `C55_third_order_partial` | S N C F |
| `C55_gyro_refuted` | S N C F |
| `C55_full_refuted` | S N C F |
| `C56_inverse_partial` | S F |
| `C56_recovered_partial` | S F |
| `C56_untouched` | S |
| `C56_fixed_refuted` | S F |
| `C56_full_refuted` | S F |
| `C57_fixed_settings` | S E C F |
| `C57_fixed_values` | S E C F |
| `C57_sensor_covariance` | S E C F |
| `C57_sensor_values` | S E C F |
| `C57_position_refuted` | S E C F |
| `C57_pose_refuted` | S E C F |
| `C57_full_refuted` | S E C F |
| `C57_no_false_alarm` | S E C F |
| `C57_zero_setting` | S E C F |
| `C58_full_state` | S |
| `C58_full_state_determines` | S |
| `C58_core_state` | S |
| `C58_core_vector` | closed |
| `C58_core_order_refuted` | S |
| `C58_indices` | closed |
| `C58_propagated` | closed |
| `C59_least_squares` | S E C F |
| `C59_orientation` | S E C F |
| `C59_exact_partial` | S E C F |
| `C59_enough_motion` | S E C F |
| `C59_small_motion_refuted` | S E C F |
| `C59_no_motion_refuted` | S E C F |
| `C59_full_refuted` | S E C F |
| `C59_condition` | S E C F |
| `C59_two_needed` | S E C F |
| `C60_statistics` | S F |
| `C60_handles` | S F |
| `C60_stable` | S F |
| `C60_never_started_refuted` | S F |
| `C60_stop_twice_refuted` | S F |
| `C60_printed` | S F |
| `C60_printed_refuted` | S F |
| `C61_walk` | S N F |
| `C61_constant` | S N F |
| `C61_quiet` | S N F |
| `C61_shared` | S N F |
| `C61_two_sensors_refuted` | S N F |
| `C61_scale_refuted` | S F |
| `C62_monotone` | S N C F |
| `C62_error` | S N C F |
| `C62_order` | S N C F |
| `C62_distinct_refuted` | S N C F |
| `C62_elapsed` | S N C F |
| `C62_threshold` | S N C F |
| `C62_threshold_refuted` | S N C F |
| `C62_nearer` | S N C F |
| `C62_delay` | S N C F |
| `C62_throttle` | S N C F |
| `C62_published` | S N C F |
| `C62_published_refuted` | S N C F |
| `C63_sound` | closed |
| `C63_complete_partial` | closed |
| `C63_two_refuted` | closed |
| `C63_absent` | closed |
| `C63_standard_refuted` | closed |
| `C64_conservative` | closed |
| `C64_safe_partial` | closed |
| `C64_inputs` | closed |
| `C64_first` | closed |
| `C64_span_refuted` | closed |
| `C64_safe_refuted` | closed |
| `C65_pose` | S E C F |
| `C65_pose_kept` | S E C F |
| `C65_flag_partial` | S E C F |
| `C65_flag_refuted` | S E C F |
| `C65_position` | S E C F |
| `C65_position_flag_refuted` | S E C F |
| `C65_position_flag_partial` | S E C F |
| `C65_pressure` | S E C F |
| `C65_spherical` | S E C F |
| `C65_shared_counter_refuted` | S E C F |
| `C66_well_formed` | S N E C F |
| `C66_fixed_bias` | S N E C F |
| `C66_scale_partial` | S N E C F |
| `C66_scale_above` | S N E C F |
| `C66_scale_refuted` | S N E C F |
| `C66_pose_fixed` | S N E C F |
| `C66_position_fixed` | S N E C F |
| `C66_unit_refuted` | S N E C F |
| `C66_covariance_refuted` | S N E C F |
| `C66_rest` | S N E C F |
| `C66_rest_partial` | S N E C F |
| `C66_rest_refuted` | S N E C F |
| `C66_consistent` | S N E C F |
| `C66_defined_partial` | S N E C F |
| `C66_defined_refuted` | S N E C F |
| `C66_counter_refuted` | S N E C F |
| `C66_settings_partial` | S N E C F |
| `C66_settings_refuted` | S N E C F |
| `C66_height_service` | S N E C F |
| `C66_height_partial` | S N E C F |
| `C66_height_refuted` | S N E C F |
| `C67_rows` | S N C F |
| `C67_spacing` | S N C F |
| `C67_distance` | S N C F |
| `C67_exact_partial` | S N C F |
| `C67_exact_refuted` | S N C F |
| `C67_first` | S N C F |
| `C67_errors` | S N C F |
| `C67_angles` | S N C F |
| `C67_zero` | S N C F |
| `C67_frames` | S N C F |
| `C67_terminates` | S N C F |
| `C67_closest_refuted` | S |
| `C67_exit_refuted` | S N C F |
| `C68_clamp` | S F |
| `C68_ranges` | S N E C F |
| `C68_settings` | S N E C F |
| `C68_request` | S N E C F |
| `C68_retry_partial` | S N E C F |
| `C68_stuck` | S N E C F |
| `C68_retry_refuted` | S N E C F |
| `C68_scale` | S N E C F |
| `C68_number` | S N E C F |
| `C68_value` | S N E C F |
| `C69_yaw` | S N E C F |
| `C69_start` | S N E C F |
| `C69_compass` | S N E C F |
| `C69_radians_partial` | S N E C F |
| `C69_length` | S N C F |
| `C69_degrees_partial` | S N E C F |
| `C69_radians_refuted` | S N E C F |
| `C69_quaternion_refuted` | S N C F |
| `C69_silent` | S N C F |
| `C69_harmless` | S N E C F |
| `C70_total` | S N C F |
| `C70_straight` | S N C F |
| `C70_reversed` | S N C F |
| `C70_red_of_grey` | S N C F |
| `C70_log` | S N C F |
| `C70_sines` | S N C F |
| `C70_turned` | S N C F |
| `C70_jet` | S N C F |
| `C70_jet_exact` | S N C F |
| `C70_even_refuted` | S N C F |
| `C70_mirror_refuted` | S N C F |
| `C70_mirror_shifted` | S N C F |
| `C71_relay` | closed |
| `C71_in_order` | closed |
| `C71_transparent` | closed |
| `C71_independent` | closed |
| `C72_bins` | S F |
| `C72_rows` | S F |
| `C72_border_refuted` | S F |
| `C72_values` | S F |
| `C72_both_least` | S F |
| `C72_upper_refuted` | S F |
| `C72_drawn` | S F |
| `C72_relative` | S F |
| `C72_relative_refuted` | S F |
| `C72_places` | S F |
| `C72_three_sigma` | S N F |
| `C72_aligned` | S F |
| `C73_omega` | S F |
| `C73_xi` | S F |
| `C73_xi_orthogonal` | S F |
| `C73_error` | S F |
| `C73_timehuman` | S F |
| `C73_messages` | closed |
| `C74_unambiguous` | closed |
| `C74_strip` | closed |
| `C74_strip_refuted` | closed |
| `C74_add` | closed |
| `C74_add_refuted` | closed |
| `C74_round` | closed |
| `C74_is_reference` | closed |
| `C74_pointer` | closed |
| `C74_no_pointer` | closed |
| `C74_const_pointer_refuted` | closed |
| `C74_pointer_to_reference` | closed |
| `C74_same` | closed |
| `C74_same_stripped` | closed |
| `C75_once` | closed |
| `C75_cond` | closed |
| `C75_throttle` | closed |
| `C75_spacing` | closed |
| `C75_no_loss` | closed |
| `C75_spacing_refuted` | closed |
| `C75_no_loss_refuted` | closed |
| `C75_clock_back` | closed |
| `C76_ranges` | S F |
| `C76_request` | S F |
| `C76_session` | S F |
| `C76_bias_noise` | S F |
| `C76_bias_noise_refuted` | S F |
| `C76_default_noise` | S F |
| `C76_flight` | S N E C F |
| `C76_rest_refuted` | S E C F |
| `C77_read` | closed |
| `C77_without_effect` | closed |
| `C77_pose_file` | closed |
| `C77_position_file` | closed |
| `C77_pose_pressure_file` | closed |
| `C77_position_pose_file` | closed |
| `C77_scientific` | closed |
| `C77_float` | closed |
| `C77_int` | closed |
| `C77_values` | closed |
| `C77_bias_noise_refuted` | closed |
| `C77_playback_refuted` | closed |
| `C77_viconpos_file` | closed |
| `C77_launch_refuted` | closed |
| `C77_remap` | closed |
| `C77_launch_remaps` | closed |
| `C77_shared_topic_refuted` | closed |
| `C77_distinct_topics` | closed |
