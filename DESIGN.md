# Formal model of jpl-eels/serpent: design

Source under study: `/repo` (read as text, never built or run). Formal part: Rocq/Coq 8.16.1, `rocq/theories`.

## Layout

| files | contents |
|------|----------|
| `Base.v` | outcomes (`Ok`, `Throw`, `UB`), ordered association maps (`std::map`), list lemmas |
| `GmModel`, `GmSpec`, `GmInv`, `GmProofs`, `GmFactors`, `GmValues`, `GmHist`, `GmKeys`, `GmStereo`, `GmIds`, `GmReach`, `GmReady`, `GmLandmarks`, `GmExamples`, `GmReadyEx`, `Props_Gm` | graph manager (C01-C14, C54) |
| `BeModel`, `BeSpec`, `BeProofs`, `BeEff`, `BeAbs`, `BeInv`, `BeSect`, `BeHealthy`, `BeLive`, `BeFair`, `BeMore`, `BeExamples`, `Props_Be` | concurrent back-end callbacks (C15-C20, C55, C56) |
| `ImuModel`, `ImuSpec`, `ImuProofs`, `ImuMore` | IMU integration and measurement buffers (C21-C23) |
| `FeModel`, `FeSpec`, `FeBaro`, `FeProofs`, `FeImu`, `FeLive`, `FeExamples`, `Interp`, `Props_Fe` | point cloud / stereo / IMU / barometer synchronisation, interpolation (C24-C27, C49, C57, C58) |
| `StModel`, `StSpec`, `StFilter`, `StTrack`, `StMatch`, `StRun`, `StEmit`, `StCost`, `StCostR`, `StGeom`, `StLink`, `StDense`, `StExamples`, `Props_St`, `Props_StR` | stereo front end (C28-C34, C59-C61) |
| `MapModel`, `MapSpec`, `MapProofs`, `MapPast`, `MapPast2`, `MapExamples`, `Props_Map` | lidar map: keyframes, spatial index, local and global map (C35-C37, C62-C64) |
| `RegModel`, `RegSpec`, `RegProofs`, `RegMore`, `RegExamples`, `Props_Reg` | scan-to-scan and scan-to-map registration callbacks (C38, C65, C66) |
| `NetModel`, `NetSpec`, `NetProofs`, `NetMore` | publish/subscribe chains with bounded queues and concurrent callbacks |
| `CfgModel`, `CfgSpec`, `CfgKeys`, `CfgProofs`, `CfgMore`, `CfgRead`, `CfgSel`, `CfgExamples`, `Props_Cfg` | parameter server, names, constructors and wiring of the lidar pipeline, stereo and robust settings (C39, C53, C67, C68) |
| `Geo` | vectors, 3x3 matrices, quaternions and rigid transforms over the reals |
| `PcModel`, `PcSpec`, `PcProofs`, `PcOps`, `PcGeom`, `PcGeomProofs`, `PcFormat`, `PcExamples`, `Props_Pc` | byte-level point clouds: fields, access, casts, filter, deskew, unit vectors, statistics, formatter (C41-C44, C69-C72) |
| `Mx` | finite sums and matrices of any size over the reals, quadratic forms |
| `CvModel`, `CvProofs`, `EgModel`, `EgProofs`, `EgPose`, `MsModel`, `MsProofs`, `MsPose`, `RegEnd`, `EgExamples`, `Props_Eg` | covariance checks, poses with covariance, frame changes, messages, registration from publisher to graph (C20, C46-C48, C50, C51, C73-C76) |
| `BfModel`, `BfSpec`, `BfProofs`, `BfLoad`, `BfMain`, `BfTheorems`, `BfLaws`, `BfCast`, `BfHalf`, `BfExamples`, `Props_Bf` | body frames: configuration tree, names, transforms, broadcast (C45, C77, C78) |
| `RcGen`, `RcModel`, `RcSpec`, `RcDeriv`, `RcTurn`, `RcPtDx`, `RcPtDz`, `RcPlDx`, `RcPlDz`, `RcProofs`, `RcComp`, `RcMat`, `RcCov`, `RcEst`, `RcMain`, `RcRegModel`, `RcRegSpec`, `RcReg`, `RcTop`, `RcExamples`, `RcFlip`, `Props_Rc` | covariance of a lidar registration: ICP derivatives, Censi and least squares estimates, settings, correspondences (C40, C79-C83) |
| `CamModel`, `CamSpec`, `CamProofs`, `CamMore`, `CamNodes`, `CamExamples`, `Props_Cam` | camera tools: image operations, splitter, camera info publisher, frame change (C52, C84-C87) |
| `RoModel`, `RoSpec`, `RoProofs`, `RoExamples`, `Props_Ro` | rotation vectors, transform components, linear rates (C88) |
| `TfModel`, `TfSpec`, `TfProofs`, `TfExamples`, `DiModel`, `DiSpec`, `DiProofs`, `DiExamples`, `Props_Tf` | moving typed clouds; distances between clouds, normal check, time units (C89, C90) |
| `NvModel`, `NvSpec`, `NvProofs`, `NvExamples`, `Props_Nv` | combining motions, integrating IMU messages, IMU tools, serpent messages (C91-C94) |
| `MtModel`, `MtSpec`, `MtProofs`, `MtExamples`, `RpModel`, `RpSpec`, `RpProofs`, `RpExamples`, `Props_Mt` | metrics node, repair of recordings (C95, C96) |
| `FoModel`, `FoSpec`, `FoLive`, `FoProofs`, `FoExamples`, `Props_Fo` | live odometry, pose of base_link, first state, motion of the lidar (C97-C101) |
| `WrModel`, `WrSpec`, `WrProofs`, `WrTheorems`, `WrExamples`, `Props_Wr` | constructors of all modules, the four nodes, wiring and start-up (C102, C103) |
| `LpModel`, `LpSpec`, `LpProofs`, `LpInv`, `LpLive`, `LpExamples`, `Props_Lp` | the whole pipeline: front end, registration and back end connected by their topics (C104-C106) |
| `BeFairMore`, `LpFairSpec`, `LpFair`, `LpFairEx` | fair infinite executions of the whole pipeline (C107) |
| `FlModel`, `FlProofs`, `FlWitness`, `FlMore`, `FlExamples` | times and pressures in floating point (C108-C110) |
| `EvModel`, `EvSpec`, `EvProofs`, `EvPose`, `EvMove`, `EvInter`, `EvAlign`, `EvSelf`, `EvTrack`, `EvExamples`, `Props_Ev` | evaluation scripts: errors, alignment, interpolation, length, track statistics (C111-C115) |
| `LkModel`, `LkSpec`, `LkProofs`, `LkNode`, `LkPipe`, `LkExamples`, `LkPipeEx` | threads, mutexes and member accesses of the node (C116, C117) |
| `PlModel`, `PlSpec`, `PlProofs`, `PlStuck`, `PlExamples` | the pipeline on the thread pool of the node (C118) |
| `PlFairSpec`, `PlFair`, `PlFairEx` | fair executions on the thread pool (C119) |
| `EvData`, `EvDataSpec`, `EvDataProofs`, `EvDataMore`, `EvDataEx`, `Props_EvD` | reports of the evaluation scripts on poses and velocities (C120, C121) |
| `FcModel`, `FcSpec`, `FcProofs`, `FcExamples`, `Props_Fc` | conversion between files and messages (C122) |
| `DaModel`, `DaProofs`, `DaExamples`, `Props_Da` | closed forms of the derivation script (C123) |
| `MsnData`, `MsnModel`, `MsnSpec`, `MsnProofs`, `MsnMore`, `MsnExamples`, `Props_Msn` | launching the shipped platforms (C124) |
| `EcModel`, `EcSpec`, `EcProofs`, `EcMore`, `EcExamples`, `Props_Ec` | motions between poses, ellipsoids, covariance consistency plot, tables of Jacobians (C125) |
| `LnModel`, `LnSpec`, `LnProofs`, `LnMore`, `LnPlat`, `LnExamples`, `Props_Ln` | remapped topics of the launch files, two processes, the three platforms, the split pictures of the snowboard (C126) |
| `FgModel`, `FgSpec`, `FgProofs`, `FgSave`, `FgCloud`, `FgExamples`, `Props_Fg` | figures and summary of the evaluation scripts, grid of the point cloud figure (C127) |
| `JgModel`, `JgSpec`, `JgProofs`, `JgDrawn`, `Props_Jg` | figures of the Jacobians, any dimension (C128) |
| `KgModel`, `KgSpec`, `KgProofs`, `KgDrawn`, `Props_Kg` | figures and summary of the tracker's statistics (C129) |
| `GtModel`, `GtSpec`, `GtProofs`, `GtExamples`, `Props_Gt` | the IMU integrator with a factor graph beside it (C130) |
| `SgModel`, `SgSpec`, `SgProofs`, `SgExamples`, `Props_Sg` | figures of summary statistics (C131) |
| `BgModel`, `BgSpec`, `BgProofs`, `BgExamples`, `Props_Bg` | reading of recorded bags, figures of the registration (C132) |
| `CgModel`, `CgSpec`, `CgProofs`, `Props_Cg` | figure of the registration covariances (C133) |
| `AnModel`, `AnSpec`, `AnProofs`, `Props_An` | node that reports statistics of point clouds, with NaN values (C134) |
| `Props_*.v` | only `Theorem ... exact ...` with `Print Assumptions` |

Conventions: every model definition carries a comment with file and lines; an external library call (GTSAM,
OpenCV, PCL, tf) is a section variable/oracle or an abstract token; undefined behaviour is a separate
outcome; exceptions keep the state mutated so far. `_refuted` theorems are findings: the unchanged code does
not have the property. `_partial` theorems say what is missing.

## Plan per property

- C01, C02, C07, C08, C09: state machine of all manager calls (`gm_step`), refinement to an abstract machine
  (function from quantity and key to value, named-key table, stamp table) by induction on call histories.
- C03, C04: ghost-free: creation log is a function of the call history; theorem relates extraction outputs and
  range queries to filtered/sorted log.
- C05, C06: ordered map of values with the real GTSAM symbol encoding (character and 56-bit index), the loop
  `add_values` with an explicit parameter for what reading the end iterator yields.
- C10-C12, C14: stereo frame step; induction over frame sequences, independent specification by track history.
- C13: invariant over optimise/marginalise histories.
- C15-C19: small-step interleaving semantics of callbacks with explicit mutex; inductive invariants;
  progress by exhibiting schedules; error exits as steps that keep the lock.
- C20: boolean decision of the acceptance test, with the validity predicate as specification.
- C21, C22: recursive model of the integration loop emitting (measurement, duration); sums by induction.
- C23, C24: list and real/rational arithmetic.
- C25: step function of the point cloud callback's time selection; induction over streams.
- C26, C27: barometer buffers step function; induction over interleavings.
- C28, C29: tracker step with image-processing oracles as inputs.
- C30, C31: list filters.
- C32: minimum search fold with oracle cost.
- C33: images as partial functions, reads outside are UB, uninitialised accumulator as universally quantified start.
- C34: field identities over the reals.
- C35-C37: map as ordered map plus index list.
- C38: two-queue interleaving semantics.
- C39: topic graph computed from the configuration.
- C40, C79: the models' matrices against derivatives (`derivable_pt_lim`) of the cost; closed forms of the derivatives of Rodrigues' formula, entries by `field`.
- C80, C81: quadratic forms of the assembled matrices; inverse as a contract.
- C82: case analysis of the configuration of C38 in front of the estimators. C83: induction over the loop, search as a contract.
- C41-C43: byte list model of PCLPointCloud2.
- C44: rigid transforms over the reals; interpolation as oracle with end-point laws.
- C45: configuration tree, recursion, group laws over the reals.
- C46-C51: matrices over the reals.
- C77: exact set of accepted trees by induction over the list of entries. C78: set of transforms sent, from the loaded maps.
- C73-C76: matrices of any size over the reals, Cholesky factorisation as the code of Eigen performs it, quadratic forms as specification.
- C52, C84-C87: pictures as functions on pixels, camera infos over the reals, operations as 2x2 integer matrices in the specification; configuration trees as for C77.
- C88: rotation vectors as solutions of the linear differential equation X' = w x X in the specification; linear rates as trajectories.
- C89: typed clouds as lists of points whose floats are a real number or not finite; C90: byte clouds as for C42, nearest-neighbour search and tf lookup as oracles.
- C91-C94: folds over message lists; the product of motions and the fold of the measurements are the specification, the IMU integrator is a parameter.
- C95: the node's variables as a state, messages as events; angle by the trace of the relative rotation. C96: lists of messages, stamps as integers.
- C97: events (IMU message, optimised state, trimming) over a state; specification is a function of the sequence of events alone. C98-C101: what a message says compared with the true motion, as equivalences.
- C102, C103: every constructor as a function from parameters to a module (topics, types, services) or an exception; sublists of one list of distinct names; case analysis over the switches; equality of the nodes by inversion.
- C104-C106: the three component models run side by side with FIFO topics between them; one invariant by assume/guarantee (each move keeps the contract of the part that receives it, using the histories of the others), state times as a function built from the announced stamps so that the back end invariant applies unchanged; rest by combining the at-rest results of back end and registration; refutation by a run and an invariant of all its continuations.
- C107: infinite executions of the pipeline under strong fairness of every agent; by induction on the number of the state: its transform and factors are sent, the registration queues move (lock released infinitely often), the back end reaches the key (C25 on the projected execution), odometry is delivered; the front end waits end by the sensor assumptions; a concrete fair infinite execution as the case.
- C108-C110: the reals rounded operation by operation (Flocq, nearest even, gradual underflow); relative error bounds, monotonicity of rounding for order, exactness by representability, doubling commuting with rounding for the middle; refutations by evaluating every operation at one input.
- C111, C113: one generic loop over estimate and reference (`errors_loop`), whose report is compared with a declarative one (`EvSpec.reports`: value of the reference at a time); invariances by a simulation between runs on moved inputs. quatinterp and rotm2quat are contracts.
- C112: recomputation is one motion by induction (telescoping products); length by the isometry of rotations and the triangle inequality; interpolation by an invariant on the position in the reference.
- C114: induction over frames with an invariant on the remembered counts; declarative `seen_for`.
- C115: the correction is a rotation (rotation vectors of C88), bounds by induction on iterations, slope by derivatives of the path of a turning point; witnesses for the refutations.
- C125: motions by the telescoping product of C112; the ellipsoid by the change to the axes of the covariance in both directions; the exact condition for the points by recovering a symmetric matrix from its quadratic form; the fraction and the size test by witnesses.
- C126: the inputs as the only names a remapping touches (none is published or offered by the back end); helpers put in front of the system keep every source unique when their names are their own; the platforms by their finite tables of names; the long pictures by the crop and half turn of one quarter for every pixel.
- C120, C121: the report is built from the functions of C111-C113; its entries are compared with distances, angles and roots of means stated on the messages (`EvDataSpec.says`, `twist_says`); invariances lift those of the error loop. rotm2axang and quat2axang are contracts.
- C122: the converter as an automaton over requests and deliveries with PCL's readers as oracles; C123: the closed forms by `field` against the derivatives of C40, gradients by `derivable_pt_lim`.
- C124: parameter files as data generated from the YAML; `launch` lays them over any server; the start by `accepted_iff` (C102) computed with the rest of the server a variable, so that every key the start depends on shows up; frames by computing the tree with the numbers symbolic.
- C116, C117: each callback as a small program of reads, writes, locks and sleeps in the order of the source, with free branches and loops; threads interleave. A checker computes, for every point of every callback, which mutexes are held and whether the thread deskews; soundness by an invariant that every thread is at a checked point and owns what the checker says; the checker is then evaluated on the callbacks. Deadlock freedom from the order of the mutexes. The condition on deskewing is discharged on the pipeline of C104-C106 by its invariant.
- C118: the pipeline of C104 with a pool: the first move of a callback needs a free thread, a callback between its first and last move keeps one. The state counters of the healthy back end show which callbacks can wait together; counting them gives the bound, `rest_done` gives what is delivered. Stuck states are found by running scripts, and an invariant (all that moves goes back to sleep without effect) shows that they stay.
- C119: fairness only for what can move with the threads there are. Callbacks that have begun are then scheduled (`calls`, `back_runs`), and while the pool is full only the threads held can change. If the pool stayed full, a section of the back end would have to sleep without end, which the state counters exclude (`imu_baro`); so a thread is free again and again, a message that could be taken still can then, and the fairness of C107 follows.
- C53: strings.

Nothing in the list is considered inexpressible; floating-point rounding (except for C108-C110), ROS transport, iSAM2 numerics,
OpenCV/PCL algorithms and real thread memory model are outside the model (see trusted base below).

## Findings

Places where the unchanged code does not do what a user would rely on. Each has a `_refuted` theorem with a
computed witness unless marked (reading only).

Graph manager
- `add_values` dereferences the end iterator when the last requested value is the greatest key of the store.
- `values(first, last)` starts at `find(first)`: landmark values are never delivered with the poses.
- Landmark ids are registered for marginalisation under the landmark id, not under a pose key.
- The factor of the previous frame is attached to X(key-1) even if stereo keys have gaps.
- A stereo call that throws leaves the track table half updated; a reacquired id makes a later extraction throw.
- A stereo call with an older key uses the newest frame as "previous".
- Factors and values that were extracted are lost if the optimiser rejects them; the evaluation order of the
  arguments of `optimise` is unspecified.

Back end
- The covariance test of the registration callback is inverted: valid covariances are replaced.
- Callbacks that lock by hand leave the mutex locked when they throw; an IMU message before initialisation and a
  registration before its IMU state do so.
- With IMU factors off, the stereo path publishes odometry before the velocity is updated.
- A second initialisation message resets the optimisation key.
- With at most three worker threads (one in lidar-only mode) all workers can sleep in polling loops for ever.
- A barometer message later than the smoothing window makes the optimiser fail (reading only).

Front end
- `front()` of an empty barometer buffer; at most one barometer state per cloud; equal barometer stamps throw.
- The wait for optimised odometry has a lost wake-up.
- IMU data stamped exactly at the ends of a sweep give a zero step, which throws; sparse data give arrays the back end rejects.
- `protected_sleep` returning early leaves the stereo mutex locked (reading only).

Stereo
- New matches are not passed through the stereo filter; keypoints are suppressed by tracks that are dropped later.
- Two statistics are never written on the first frame; a failed call is not atomic.
- The ratio test compares only with earlier candidates; one-directional matching produces duplicates.
- Window sums start from an uninitialised variable; the filter setters read uninitialised members.
- `keypoint_in_other_image` may leave its result unassigned; `stereo_project` reads a fourth component of a 3-vector.

Map
- A second cloud with a mapped stamp leaves map and spatial index out of step; the pose of a mapped frame is not
  updated when its stamp is that of the cloud.
- Past mode: a path naming a mapped frame dereferences a null pointer; a cloud older than all frames walks past the end.
- An update that throws has already added the cloud.
- The switch for filtering the global map is never used.

Registration
- With scan-to-map off the map subscription remains; the first local map blocks a worker for ever.
- Scans and maps are paired by count: one lost map misaligns all later refinements.
- Shutdown while a map callback waits leaves the mutex locked.

Configuration
- Fourteen documented keys are ignored (`dead_keys`): `statistical_outlier_removal/{mean_k,stddev_mul_thresh}` (the code reads
  `statistical_outlier_removal_filter/…`), everything under `sparse_optical_flow/pyrlk/`, `sift/contrast_threshold` (read as
  `constrast_threshold`), the gradient tolerances of gicp.
- The body filter keeps the body and removes the world: `setNegative` is never called.
- An unknown `stereo_factors/robust/type` is accepted and yields a noise model around a null estimator.
- With method CONSTANT an unknown point covariance method, which is not used, stops the node.
- Method LLS alone does not start: the default point covariance RANGE is not supported for it.
- A cloud without ranges ends the process in the default configuration.
- The filter class with no filter enabled never publishes its output topic; the nodes do not create it then.

Point clouds
- `add_fields` on a cloud with padding after the last field copies whole old points into smaller new ones: it writes past the
  buffer whenever the new step is smaller than the old one (`add_fields_overruns`).
- `cast_field_with_scale` returns early when the field already has the type, without scaling: an Ouster driver that sends float
  nanoseconds has them taken as seconds.
- `deskew` computes `new_time - stamp` in unsigned arithmetic: a reference time one microsecond before the stamp is taken as more
  than 500 000 years after it.
- `deskew` sets point times to zero, except if the motion is the identity: then they are kept.
- One point at the origin makes `add_unit_vectors` throw for the whole cloud; fields `ux`, `uy`, `uz` already present are duplicated
  (the first ones are then overwritten).
- The `scale_and_cast_field` overload that takes a name calls itself without end; its type argument is not used.

Poses, covariances and messages
- Registration to graph: every finite, symmetric, positive definite estimate makes the registration callback throw, every other one is
  used (`valid_estimate_rejected`, `invalid_estimate_used`, `reg_factor_iff`).
- `reorder_covariance` uses compile-time sizes: for a dynamic matrix they are -1, so it writes out of bounds.
- `is_valid_covariance` with a precision accepts matrices that are not positive definite, because only the lower triangle is factorised
  (the comment says upper).
- `apply_transform(Pose, Pose)` ignores the covariance of its second argument.
- `Imu::change_frame` rotates the orientation covariance by the inverse of the rotation used for the other covariances.
- `from_skew_symmetric` rejects positive diagonals only: non-skew matrices with a zero or negative diagonal pass.
- `cartesian_to_polar` divides by x^2+y^2 instead of its square root: the azimuth is right on the unit circle and on x = 0 only, and is
  not a number whenever x^2+y^2 < |x|.
- `to_ros` for multi-arrays appends dimensions: a message used twice can no longer be read. `from_ros` trusts the strides and reads past a
  message that holds less data than its dimensions promise.

Body frames
- A `rotation` without `w` takes w = 0: (x, y, z) alone turns by half a turn, where the documentation gives w the default 1.0
  (`rotation_w_refuted`). An all-zero rotation is taken as none.
- `dynamic: true` is documented to override aliases, lookup_tf, translation and rotation; the code refuses the configuration instead.
- A `translation` given as a list loads and has no effect (`array_translation_ignored`); one with whole numbers (`x: 1`) is refused.
- `BodyFramesTf` sends dynamic frames as static transforms with their value at start, and sends nothing if one of them is not yet available.
- `robot_default.yaml` gives `y` twice in the translation of the imu and no `z`.

Registration covariance
- The nonlinear models divide by the rotation angle: registering without rotation gives no numbers (`no_rotation`).
- Least squares with a nonlinear model away from a fit can give an indefinite matrix (`lls_nonlinear_refuted`).
- RANGE_BIAS adds the independent range noise per coordinate (diagonal of the outer product) and not along the ray; the covariance differs
  from the one for independent range noise (`bias_refuted`).
- `compute_registration_correspondences` records positions in the index vector instead of point indices (`subset_refuted`); no caller selects
  indices. Its reciprocal variant is not reciprocal (`not_mutual_refuted`); no caller uses it.

Camera tools
- The principal point follows the corner of the picture: under the pixel centre convention of OpenCV and ROS it is one pixel off along every
  reversed axis (`centre_refuted`, `centre_error`). P and D keep their old values after an operation (`projection_matrix_refuted`; the node warns).
- `rotate_cw: 0` and `rotate_acw: 0` are documented and refused (`zero_refuted`). An angle such as 45 loads with an unset option, and the first
  image is undefined behaviour (`odd_angle_refuted`).
- Operations act in the order of their names, not as written (`order_refuted`); each can occur once. The type check of `operations` looks at
  `region`: a list of operations is read as a struct (`operations_list_refuted`).
- `fx: 600` is refused, as is `cx: 480.5` (`number_types_refuted`); a missing focal length is zero (`missing_settings_accepted`).

Rotation vectors, clouds
- Components made from the zero rotation vector divide by zero: the matrix is not a number (`zero_rotation_refuted`).
- `linear_rates` gives rates in the frame of the first pose; read as a body twist they lead elsewhere (`body_rates_refuted`).
- With `copy_all_fields` false and a cloud that is not dense, points without a position are whatever the output held (`not_copied_refuted`).
- `check_normals` returns 0 for a cloud of not-a-number normals, and the analyser then reports that all are normalised (`nan_normals_refuted`).
- `convert_ns_to_s` on an integer field drops everything below a second (`integer_times_refuted`).
- The distance cloud of 2^28 points has a buffer of size 0 (`too_many_points_refuted`).

Navigation and IMU tools, scripts
- Combined motions are published with zero covariance, zero velocity and no frame names, whatever the inputs (`uncertainty_lost_refuted`); a misspelt `transform_type` subscribes to nothing (`misspelt_type_refuted`).
- With a GTSAM that accepts negative steps, after a message with stamp 0 the IMU integrator takes a new initial state but keeps its old measurements (`restart_refuted`), and stamps that go back are integrated over a negative time (`backwards_refuted`). With one that refuses them both end the node (`back_refused`). Which of the supported versions (README 91) does which was not checked: their sources are not in the sandbox.
- `imu_transform` turns only the columns of the orientation covariance, which is then not symmetric (`turned_covariance_refuted`); the second frame of the analysis does not turn about the sensor (`second_frame_refuted`).
- Reading an IMU array appends to the target (`array_appended_refuted`).
- The metrics node names translation variances as rotation and the other way round (`labels_refuted`), stops with IndexError on a path of one pose (`one_pose_refuted`), reports a full turn for opposite quaternions (`opposite_refuted`), no turn for not-a-number orientations (`nan_orientation_refuted`) and can compare a pose with itself (`torn_refuted`).
- The repair script can make stamps go back (`goes_back_refuted`), alters topics whose name is part of the cloud topic's (`other_topic_refuted`) and gives leading clouds stamps near zero (`leading_refuted`).

Messages of the front end
- The motion used for deskewing is changed to the lidar frame with the inverse of the right transform: frontend.cpp 499 passes `body_to_frame("lidar")` where optimisation.cpp 445 passes `frame_to_body("lidar")`. With a lidar turned on the body, clouds are deskewed along the wrong direction (`skew_iff`, `skew_refuted`).
- The live angular velocity adds the gyroscope's bias (frontend.cpp 239) where it must be subtracted (`live_rate_refuted`); the live linear velocity is in the map's axes while the message's child frame is the body (`live_velocity_refuted`); all covariances sent are zero.
- `output/pose` is the pose of the body frame under the heading of base_link (frontend.cpp 294-297), unlike the transform broadcast with it (`base_link_pose_refuted`).
- The angular velocity of the first state is left in the axes of the IMU (`first_rate_refuted`).

Wiring and start-up
- The default topics of record.launch include two that nobody publishes with the shipped configuration (`recorded_refuted`): stereo/statistics needs debug/stereo/publish_stats, the distance statistics another launch file.
- With an unknown stereo_factors/robust/type the node starts with a null estimator (`unknown_estimator_refuted`).
- With barometer factors off a zero barometer noise is still refused if overwriting is on (frontend.cpp 135-141, `accepted_iff`).
- The imu entry of robot_default.yaml has `y` twice and no `z`.

Pipeline
- Without registration factors the back end answers an IMU array at once; if its odometry reaches the front end before the point cloud callback has seen the previous one, that callback waits for an equality of stamps that never comes back, and no cloud is ever published again (`open_loop_stops`, frontend.cpp 452-459). With registration factors this cannot happen (`never_overtakes`).

- C108: point times pass through float: points up to 7 ns apart can get the same time, the sweep duration of a 100 ms sweep is one nanosecond too long, and the fraction of the last point is above 1 for about half of all sweeps (1 + 5e-9 for 100 ms), so it is extrapolated. Harmless in size, but `fraction <= 1` is not an invariant of the deskewing.
- C109: for IMU messages more than a second apart the message exactly in the middle can be attributed to the second message (`t1 = 0`, `t2 = 1249458448`, `t = 624729224` ns), because `toSec` rounds seconds and nanoseconds together.
- C110: interpolating between two equal pressures can give another pressure (101325 Pa at 55 ms of 200 ms gives one unit in the last place more).

- C112: `interpolate_trajectory.m` divides 0 by 0 when the reference ends with two equal stamps and is asked for that stamp, and fails with an index error for a reference of a single pose.
- C113: in `compute_vector_errors.m` the absolute error is estimate minus reference, the relative one reference minus estimate.
- C114: `compute_frame_track_statistics.m` fails as a whole if any frame has no features (`max([])` assigned to one element).
- C115: `align_trajectory.m` normalises the rotation vector without a test for zero: a trajectory that fits already gives NaN after the first iteration and is then displaced by `max_r_change` and `max_t_change` in every coordinate, since MATLAB's `max` and `min` drop the NaN. Its gradient uses `skew(t_1_i)` also when `R_c` is no longer the identity, where the slope would need `skew(R_c * t_1_i)`. `final_loss` stays -1 for one iteration.

- C116: the point cloud callback of the front end reads the integrator settings, the odometry state and the biases without `preintegration_mutex` (FE 462-493); it is safe only because optimised odometry cannot arrive then. That holds with registration on (`C116_no_odometry_while_deskewing`), but with registration off the back end answers IMU data at once and the odometry callback can write the three members while they are read: a data race (`C116_odometry_while_deskewing_refuted`).
- C117: after `ros::shutdown` a callback waiting in `protected_sleep` with `leave_locked` returns with the mutex locked; destroying a locked `std::mutex` is undefined (`C117_shutdown_leaves_locked`).

- C118: `node.cpp` 75 and `serpent.launch` 17 take four threads unless told otherwise (the launch files of the missions say eight). With a stereo camera four callbacks can wait at once (point cloud for odometry, IMU data for registration, stereo features for a state, local map for a scan), and the scan callback all of them wait for finds no thread: the node stops for ever (`C118_bound_exact_refuted`). Five threads are enough (`C118_thread_free_at_rest`).
- C118: registration subscribes to the local map even with `s2m/enabled` off (registration-inl.hpp 82); the callback then waits for a queue nobody fills and keeps its thread for ever (`C118_map_thread_lost`).

- C120: `compute_pose_data.m` takes the length of every estimate, also of one with no message at a time the reference covers: `poses(1)` then fails and there is no report on any estimate, whereas `compute_twist_data.m` reports such an estimate without numbers. An estimate with one covered message has a report whose relative RMSE is NaN.

- C122: `pointcloud_file_converter.cpp` 18-33 fixes whether a topic is latched with the first request for it, before the file is read: after a failed request without latch, later requests with latch are answered but who subscribes afterwards receives nothing. The number of points in the answer is a 32 bit product. The Open3D variant answers a save for the PCL type whatever the return code of the writer (it prints the code).

- C123: the rotation of `degeneracy_analysis.m` divides by the angle, so that none of its forms is a number at r = 0, where the identity is meant.

- C124: the launch files do not clear parameters. A simulator mission without `velocity` (spiral, stationary, traverse) launched on a master where an ellipse mission ran starts with the velocity of the ellipse. `eels_head.yaml` gives the imu no rotation, so that after `snowboard` its imu keeps the half turn about y of the snowboard. `ue4_missions/config/serpent/tuning.yaml` names `camera` as the left camera, which is the middle of the pair, 5 cm from `left_cam`.

- C125: `plot_normalised_covariance_scatter.m` scales the error with `v * inv(d) * t` where the coordinates along the axes are `inv(d) * v' * t`: with covariance diag(4, 1, 1), eigenvalues ascending, an error of 3 along the first axis (1.5 deviations) is drawn outside the sphere of two deviations. The fraction it prints uses the norm of the last point only, and `length(t_error)` of fewer than three rows is 3, an index error.

- C126: the argument `stereo_camera` of `snowboard/launch/serpent.launch` works for `snowboard_left` only: the other three cameras are split off but have no file under `config/camera_calibration`, and `undistort_stereo.launch` keeps the output frames `left_stereo_*_cam_rect` whichever camera is named. `serpent_tunnel.launch` declares the argument and does not pass it on.

- C127: the titles set before `subplot` in `plot_pose.m` and `plot_twist.m` are deleted with the axes they were put on. `angle` values other than `"deg"` (say `"degrees"`) appear on the labels while the values stay in radians. The absolute errors of the angular velocity are labelled `AE`, except two cells labelled `APE`.
- C127: `plot_pointcloud_statistics.m` uses a grid of floor by ceil of the square root of the number of fields, which has a cell for every field only for numbers from k*k to k*(k+1): a cloud of x, y, z fails, so does one of seven fields. With fewer than five clouds the step of the ticks is 0 and no tick is left.

- C128: `plot_jacobian.m` writes legends after the loop without choosing a window, so that only the last window gets them; `plot_and_save_jacobians.m` closes only the first window.
- C129: with `use_frame_numbers` the cell labelled `frame number` of `plot_statistics.m` shows times, and the histogram of track lengths is drawn over times under the label `frame`. A message without match ids makes `compute_frame_track_statistics.m` fail, and with it all figures and the summary.

- C130: in `integrate_imu_graph_test.cpp` a first message with stamp 0 makes the second message set the first state again; `new_values.insert` throws and the node ends, where `integrate_imu.cpp` goes on. The bias and the estimates of the optimiser are printed and never used.

- C131: `plot_summary_statistics.m` finds a statistic by its position, so that messages which list them in another order are drawn under the wrong label; it writes no legend, and its output `fig` is never assigned.

- C132: the sections of `main.m` with a baseline (lines 55, 87, 129, 175; the last section has none) leave its registration topic empty, but `raw_data_from_rosbags.m` fails for a file without messages, so none of the other estimates gets its figure of the registration covariance either; only a warning is given. Lines 57-58 name six topics of statistics for eleven files, which fails whatever the bags hold. The number of names is not compared with the number of files when reading.

- C133: a negative or zero variance leaves a gap in the curves of `plot_pose_with_cov.m` without an error. Two estimates of one name overwrite each other's file `registration_covariance_<name>`.

- C134: a cloud with fields but without points makes `statistics` throw inside the callback of `pointcloud_analyser.cpp`, and nothing catches it: the node ends. One NaN value makes mean and variance of its field NaN, although minimum and maximum pass over it and the count includes it; a field of NaN only is reported with a minimum above its maximum. Normals of NaN are called normalised. The stamp loses the digits below a microsecond.

## Trusted base

1. The Coq 8.16.1 kernel and its standard library. No axiom, parameter, functor or module type is declared here,
   no proof is admitted and no kernel check is switched off.
2. `Print Assumptions` at the end of every `Props_*.v`. Graph manager, back end, IMU buffers, front end
   synchronisation, tracker, filters, matcher, map: "Closed under the global context". The theorems about real
   numbers (`Interp` for C24, C49; `StCostR`, `StGeom` for C34, C61; `Geo`, `PcGeom*` for C44, C71, C72; `Mx`, `Cv*`, `Eg*`, `Ms*`, `RegEnd` for C20, C46-C48, C50, C51, C73-C76; `Bf*` for C45, C77, C78; `Rc*` for C40, C79-C83; `Cam*` for C52, C84-C87; `Ro*` for C88; `Tf*`, `Di*` for C89, C90; `Nv*`, `Mt*` for C91-C95; `Fo*` for C97-C101; `Wr*` for C102-C103; `Fl*` for C108-C110, through Flocq; `Ev*` for C111-C115, C120, C121; `Da*` for C123; `Msn*` for C124; `Ec*` for C125; `Ln*` for C126; `Fg*` for C127; `Jg*` for C128; `Kg*` for C129; `Gt*` for C130; `Sg*` for C131; `Cg*` for C133; `An*` for C134) use the axioms of the standard library's real
   numbers: `ClassicalDedekindReals.sig_forall_dec`, `ClassicalDedekindReals.sig_not_dec`,
   `FunctionalExtensionality.functional_extensionality_dep`, and `Classical_Prop.classic` where `lra`/`field` on `R`
   pull it in.
3. The reading of the source recorded in the comment of each model definition (file and lines), in particular
   - `double`/`float` are read as real or rational numbers; rounding, overflow, NaN and denormals are outside,
     except for times and pressures in `FlModel` (every operation rounded to nearest even; overflow left out) and where the code's sentinel matters (DBL_MAX and "not found" are `None`);
   - time stamps are integers (nanoseconds), point cloud stamps integers (microseconds) with the truncating conversions of PCL;
   - `integrateMeasurement` throws for steps that are not positive (`ImuModel`; from the documented behaviour of GTSAM as remembered, its source is not in the sandbox; `NvModel` covers both behaviours);
   - the GTSAM >= 4.2 branch of the conditional compilation; `gtsam::Symbol` with its real bit layout;
   - reading an end iterator of `gtsam::Values` is undefined, and the model's parameter says what the read yields
     when it happens not to crash;
   - an exception that escapes a roscpp callback ends the process; `ros::ok()` is read once per section of a loop;
   - point cloud number formats are a parameter (`codec`, laws `codec_ok`, `widening`, both met by concrete codecs); a cast of a
     float out of the range of an integer type, undefined in C++, is a value of that parameter;
   - Eigen's `LLT` (column by column, failing on a pivot that is not positive), its conversion of rotation matrices to quaternions and
     `Isometry3d::inverse` are modelled over the reals; entries that are not finite are `None`;
   - `RcGen.v` (144 expressions of the nonlinear ICP models) was translated from the C++ text by a script, one definition per function, names kept;
     Eigen's `AngleAxis` from a rotation goes through its quaternion; a division by zero or a singular inverse is no number (`None`);
   - `cv::flip`, `cv::transpose`, `cv::rotate`, `cv::Mat(Rect)` as documented; xmlrpcpp: a missing member of a non-const struct is an invalid value that
     converts to zero or empty, `begin()` does not check the type, structs iterate in the order of names;
   - Python: `min(1, nan)` is 1, comparisons with nan are false, `a in b` on strings is a substring test; `genpy` times are integers;
   - ROS: names are resolved and remapped once per advertisement or subscription, in the namespace `/`; a missing parameter file stops `roslaunch`;
   - MATLAB windows: `subplot` selects the axes of a cell or makes them and deletes axes they overlap (cells of another grid count as overlapping); without `hold on` a plot replaces
     curves, title, labels and legend; a column without rows draws an empty curve; only columns of one length can be drawn;
   - MATLAB bags and string arrays: `rosbag` of a missing file is an error, `select` keeps the records of the topic and type in the order recorded; `+` on strings repeats a dimension of size 1 and is an error for other unequal sizes; `length` is the larger dimension and an index counts down the columns (C132);
   - MATLAB: an index outside an array or `A(i) = max([])` is an error, `max` and `min` ignore NaN, `quat2rotm` normalises;
   - steps between lock operations are atomic in the component models; what justifies it is C116: no two threads are about to make conflicting accesses (the usual definition
     of a data race on interleavings; the C++ memory model itself is outside). There, a subscription runs one callback at a time (roscpp's default), a `TimeSynchronizer` calls back under its own mutex, publishers and tf
     objects are thread safe, members set only by constructors and the function-local statics of `ROS_*_ONCE` are left out.
4. Contracts of external code, as hypotheses of the theorems: feature detector, optical flow (`flow_ok`: one result
   per point), matching cost, nearest neighbour search (`knn_ok`), the optimiser of the healthy environment
   (`BeHealthy`), an ISAM2 that solves every system it is given, throwing only for known keys and factors on unknown ones (`GtModel`, C130), PCL's nearest neighbour search (`finds_nearest`), Eigen's 6x6 inverse (`inverts`), strong fairness for the progress theorems, the input contract of the front end (`calm_run`), clouds
   delivered only when the callback is idle; the sensor contract of the pipeline (`LpSpec.fine`: sensors and numerical work only, nothing about the other components); MATLAB's `quatinterp` (`stays_unit`, `keeps_ends`, `turns_along`) `rotm2quat` (`reads_rotation`), `eig` (`EcSpec.decomposes`), `rotm2axang` and `quat2axang` (`reads_axis`, `reads_quaternion`); GTSAM's preintegration (any functions `pim_new`, `pim_add`, `pim_predict`; refuses a time step that is not positive) and its checks of an estimator's parameter (`estimator_ok`); PCL's filters, normals and sampling in the lidar pipeline; `ros::Duration` `toSec` (seconds plus 1e-9 times nanoseconds, in double) and construction from seconds (`floor`, then nanoseconds rounded); PCL's file readers and writers (any functions `decode`, `encode`; `reads_back` where stated) and roscpp's latching (C122); roslaunch and the master setting every leaf of a parameter file on its own, keeping the rest (`set_leaf`, C124). For each contract an `Example` exhibits an instance.

Not modelled: ROS transport between processes and message filters (their pairing appears as input; publishing within
a process is modelled in `NetModel` with roscpp's queue rule), tf, iSAM2 numerics, OpenCV and PCL
algorithms beyond their contracts, launch files beyond the parameters they load (C124) and the topics they connect (C126), visualisation (the plotting scripts beyond the computations of C111-C115, C120, C121, C125 and the windows of C127-C129, C131 and C133, whose limits, grids, sizes, line widths and box plots are left out; in `plot_gaussian_ellipsoid.m` only the three-dimensional shape).
