{"id": "C01", "title": "State values behave as a map with frame property", "statement": "After any history of graph-manager calls (successful or throwing), reading the pose, velocity, IMU bias, barometer bias or landmark of a key returns exactly the value of the last successful write to that same quantity and key (setter, landmark creation or optimiser feedback), and throws iff there was none. A write never changes any other quantity or key.", "quantifier": "every finite history of graph-manager calls, every key, every value", "why_tests_cant": "The history space is unbounded and includes calls that throw half-way; a unit test only samples a few histories.", "anchors": ["serpent/include/serpent/back_end/graph_manager-inl.hpp: add, set, update", "serpent/src/back_end/graph_manager.cpp: set_pose, set_velocity, set_imu_bias, set_barometer_bias, set_navstate, pose, velocity, imu_bias, barometer_bias, update_from_values"]}
{"id": "C02", "title": "Pending values always agree with the current estimate", "statement": "At every moment each value still waiting to be handed to the optimiser equals the value returned by the getters, so the optimiser is never given a stale initial estimate; values already handed over are never pending again.", "quantifier": "every finite history of graph-manager calls including optimiser feedback arriving between a write and its extraction", "why_tests_cant": "Needs an invariant over all interleavings of writes, feedback and extraction.", "anchors": ["serpent/include/serpent/back_end/graph_manager-inl.hpp: add, set, update", "serpent/src/back_end/graph_manager.cpp: extract_new_values, update_from_values"]}
{"id": "C03", "title": "Factor conservation and order", "statement": "Every factor created at key k is handed to the optimiser exactly once, by the first optimisation whose key bound is at least k; an optimisation up to m hands over precisely the not-yet-handed factors with key at most m, in increasing key order and creation order within a key; nothing is dropped or duplicated, and the full factor record always contains every factor ever created.", "quantifier": "every finite history of factor creations and optimisations with arbitrary keys (also out of order)", "why_tests_cant": "Loss or duplication may only show for particular orders of creation and extraction; there are infinitely many.", "anchors": ["serpent/src/back_end/graph_manager.cpp: add_factor, extract_new_factors, factors, new_factors, all_factors"]}
{"id": "C04", "title": "Factor range query is exact", "statement": "factors(first, last) returns exactly the factors created with first <= key <= last, grouped by increasing key and in creation order; factors_for_key(v) returns exactly the created factors that involve variable v.", "quantifier": "every history and every pair of bounds (also empty and negative ranges), every variable", "why_tests_cant": "Quantifies over all histories and all ranges.", "anchors": ["serpent/src/back_end/graph_manager.cpp: factors(int,int), factors_for_key, all_factors"]}
{"id": "C05", "title": "Values handed to the optimiser are exactly the pending ones up to the bound", "statement": "When the iterator past the last stored value reads as a key outside the symbol range (libstdc++ behaviour), an optimisation up to m hands over exactly the pending bias, pose, velocity and pressure-bias values with index at most m and the landmarks first created at keys at most m, and leaves all others pending. The C++ code dereferences the end iterator in that situation, which is undefined behaviour: this is reached by every optimisation of a graph whose last pending pose is at most m.", "quantifier": "every manager state satisfying the manager invariant and every bound m", "why_tests_cant": "The undefined behaviour is invisible to a test on the usual standard library, and exactness is over all states.", "anchors": ["serpent/src/back_end/graph_manager.cpp: add_values, extract_new_values"]}
{"id": "C06", "title": "Value range query", "statement": "values(first, last) contains every bias, pose, velocity and pressure bias with index in [first, last] and nothing else of these kinds, and contains the landmarks created at keys in [first,last] provided a stereo frame was processed at key `first`; without that proviso landmarks of the range are silently omitted (refuted).", "quantifier": "every manager state and every pair of non-negative bounds", "why_tests_cant": "The omission only shows for ranges starting at a key without stereo data.", "anchors": ["serpent/src/back_end/graph_manager.cpp: values(int,int), add_values"]}
{"id": "C07", "title": "Minimum key", "statement": "minimum_key(p) is a lower bound of, and is attained by, the named keys whose priority value is at most p; it throws iff there is no such named key; raising p never raises the result.", "quantifier": "every set of named keys, every priority bound", "why_tests_cant": "All key maps and priorities.", "anchors": ["serpent/src/back_end/graph_manager.cpp: minimum_key, set_named_key, increment, key"]}
{"id": "C08", "title": "Named keys only move by explicit request", "statement": "A named key's number equals its last explicit assignment plus the number of increments of that name since; its priority is that of the last assignment; operations on other names and all value/factor operations leave it unchanged; reading or incrementing an unknown name throws and changes nothing.", "quantifier": "every history of manager calls", "why_tests_cant": "All histories.", "anchors": ["serpent/src/back_end/graph_manager.cpp: set_named_key, increment, key, priority"]}
{"id": "C09", "title": "Timestamps and durations", "statement": "timestamp(k) is the last timestamp set for k; time_between is additive over a chain of keys, antisymmetric, and zero on the diagonal whenever the timestamps exist; it throws iff one of the two is missing.", "quantifier": "every history and every triple of keys", "why_tests_cant": "Universally quantified algebraic law over histories.", "anchors": ["serpent/src/back_end/graph_manager.cpp: set_timestamp, timestamp, time_between"]}
{"id": "C10", "title": "Stereo landmark factors for consecutive frames", "statement": "Feeding stereo frames at consecutive keys, with ids never reacquired after a loss: every (pose, landmark) pair gets a projection factor exactly when the id was seen in that frame and in an adjacent one, exactly once, carrying that frame's own measurement; the landmark is listed exactly once, at the key where it was first tracked; its value is the back-projection of its latest tracked observation from the latest pose.", "quantifier": "every sequence of feature frames satisfying the documented precondition, of any length", "why_tests_cant": "Duplicate or missing factors depend on the whole track history of every feature.", "anchors": ["serpent/src/back_end/graph_manager.cpp: create_stereo_factors_and_values, stereo_landmarks"]}
{"id": "C11", "title": "Missed stereo keys attach the previous observation to the wrong pose", "statement": "The documentation says keys may be missed between stereo frames. If the previous stereo frame was at key j and the new one at key k, a newly tracked feature's first observation (made at j) must constrain pose j. It does iff j = k-1; for every gap it is attached to pose k-1 (refuted in general, proved for no gap).", "quantifier": "every pair of consecutive stereo keys j < k and every feature set", "why_tests_cant": "Only visible in a graph with a gap; needs statement over all gaps.", "anchors": ["serpent/src/back_end/graph_manager.cpp: create_stereo_factors_and_values", "serpent/include/serpent/back_end/graph_manager.hpp: create_stereo_factors_and_values (doc)"]}
{"id": "C12", "title": "Stereo call is not failure-atomic", "statement": "If adding stereo features fails because the pose is missing, the caller may set the pose and retry. The retry always fails with a duplicate-key error (refuted failure atomicity); a call that does not throw is atomic in the sense that all of its factors, ids and values are registered.", "quantifier": "every manager state with at least one earlier stereo frame", "why_tests_cant": "Needs reasoning about the state left by the exceptional path from every state.", "anchors": ["serpent/src/back_end/graph_manager.cpp: create_stereo_factors_and_values"]}
{"id": "C13", "title": "Marginalisation window", "statement": "With marginalisation enabled with window w, after an optimisation up to m every non-landmark variable with index at most m-w and none with larger index has been marginalised; each variable is marginalised at most once; asking to marginalise beyond the optimised key throws and changes nothing.", "quantifier": "every history of optimisations with arbitrary bounds", "why_tests_cant": "Needs induction over optimisation histories.", "anchors": ["serpent/src/back_end/graph_manager.cpp: extract_unmarginalised_keys, ISAM2GraphManager::marginalise, ISAM2GraphManager::optimise, set_marginalisation"]}
{"id": "C14", "title": "Landmarks are marginalised by id instead of by key", "statement": "A landmark seen within the window should stay active. Landmarks are registered for marginalisation under their feature id, so a landmark with a small id is marginalised as soon as m-w reaches its id although it was created at the current key (refuted), and a landmark with id above all keys is never marginalised.", "quantifier": "every window size and key", "why_tests_cant": "Depends on numeric relation of ids and keys, arbitrary far into a run.", "anchors": ["serpent/include/serpent/back_end/graph_manager-inl.hpp: add", "serpent/src/back_end/graph_manager.cpp: create_stereo_factors_and_values, extract_unmarginalised_keys"]}
{"id": "C15", "title": "Sensor keys stay in lock-step with the optimised key", "statement": "In every reachable state of the concurrent back end fed by a well-behaved front end, once initialised and with no callback inside a critical section: the IMU key is the last optimised key or one more, the registration key lies between them, the stereo key does not pass the IMU key and (from key 1 on) is not behind the optimised key, the barometer key is at most one past the state chain, exactly the poses up to the IMU key exist with the front end's time stamps, and no callback ever fails. In every reachable state at all, the graph is only modified by the holder of the graph mutex and the execution is equivalent to one in which critical sections run one after another.", "quantifier": "every interleaving of callback steps, any number and order of incoming messages", "why_tests_cant": "Scheduling is non-deterministic; only an inductive invariant covers all interleavings.", "anchors": ["serpent/src/back_end/optimisation.cpp: imu_s2s_callback, registration_callback, stereo_features_callback, barometer_callback, add_registration_factor"]}
{"id": "C16", "title": "Each state is optimised exactly once, in order, after all sensors contributed", "statement": "In every execution, the sequence of optimised keys is 0,1,2,3,... without gaps or repeats, when key k is optimised every enabled high-priority sensor has added its factor for k and none has added a factor for k+1, and one odometry message per optimised key is published, in order, with the time stamp of that key.", "quantifier": "every interleaving and message sequence, every enabled-sensor configuration with IMU factors", "why_tests_cant": "Concurrency: order of last-arriving sensor varies.", "anchors": ["serpent/src/back_end/optimisation.cpp: imu_s2s_callback, registration_callback, stereo_features_callback, optimise"]}
{"id": "C17", "title": "Back end makes progress", "statement": "With at least one worker per blocking sensor plus one, in every fair execution every key whose messages have all been delivered is eventually optimised: the polling loops cannot block each other forever.", "quantifier": "every infinite fair execution of the concurrent back end, any message sequence of a well-behaved front end", "why_tests_cant": "Absence of deadlock is a statement about all reachable states.", "anchors": ["serpent/src/back_end/optimisation.cpp: imu_s2s_callback, registration_callback, stereo_features_callback"]}
{"id": "C18", "title": "A throwing or shut-down callback leaves the graph locked", "statement": "After any back-end callback terminates, normally or not, the graph mutex is free. Proved for normal termination; refuted for error paths (e.g. mismatched timestamps, missing variance, shutdown during polling), after which no callback can ever modify the graph again.", "quantifier": "every callback, every reachable state, every exit path", "why_tests_cant": "Exception paths in every state; the consequence (permanent block) is a liveness statement.", "anchors": ["serpent/src/back_end/optimisation.cpp: barometer_callback, imu_s2s_callback, stereo_features_callback, registration_callback"]}
{"id": "C19", "title": "Barometer bias chain is contiguous", "statement": "After any number of accepted barometer messages the bias variables exist for exactly the keys 0 to the last accepted one, consecutive biases are linked by exactly one random-walk factor, there is exactly one prior, on the key of the first accepted message, and each accepted message adds exactly one pressure factor, at the key with its time stamp.", "quantifier": "every sequence of barometer messages interleaved with state creation", "why_tests_cant": "Depends on how many state keys elapsed between messages, unbounded.", "anchors": ["serpent/src/back_end/optimisation.cpp: barometer_callback", "serpent/src/back_end/graph_manager.cpp: create_barometric_bias_factor, create_prior_barometer_bias_factor"]}
{"id": "C20", "title": "Registration covariance check is inverted", "statement": "A registration message with a well-formed covariance should be accepted and a malformed one rejected. The check rejects exactly the valid covariances and accepts exactly the invalid ones (with non-zero diagonal) (refuted).", "quantifier": "every 6x6 covariance", "why_tests_cant": "A statement over all covariances; the sensor mocks used in tests supply few.", "anchors": ["serpent/src/back_end/optimisation.cpp: add_registration_factor", "eigen_ext/include/eigen_ext/covariance.hpp: is_valid_covariance"]}
{"id": "C21", "title": "IMU integration covers the interval exactly", "statement": "For a time-ordered measurement list whose first stamp is not after start and any start <= end, the durations integrated are all non-negative and add up to exactly end - start; each instant is integrated with the latest measurement not after it; measurements outside the interval are not used.", "quantifier": "every sorted measurement list (at least two) and every interval", "why_tests_cant": "Boundary coincidences between stamps and bounds are infinite in number.", "anchors": ["serpent/src/utils/utilities.cpp: integrate_imu"]}
{"id": "C22", "title": "IMU integration zero-length step", "statement": "GTSAM rejects a non-positive step. A zero step is produced iff some used measurement is stamped exactly at the end of the interval (or two used measurements share a stamp); otherwise all steps are strictly positive.", "quantifier": "every sorted measurement list and interval", "why_tests_cant": "Measure-zero coincidence that random tests do not hit.", "anchors": ["serpent/src/utils/utilities.cpp: integrate_imu"]}
{"id": "C23", "title": "Dropping old measurements", "statement": "delete_old_measurements removes precisely the longest prefix of measurements older than the bound; on sorted input it keeps exactly those with stamp >= bound, in order; it is idempotent and monotone in the bound.", "quantifier": "every buffer and every bound", "why_tests_cant": "All buffers.", "anchors": ["serpent/src/utils/utilities.cpp: delete_old_measurements"]}
{"id": "C24", "title": "Timestamp interpolation", "statement": "Interpolating between two stamped quantities throws unless t1 < t2 and t1 <= t <= t2; the result lies between the end values, equals them at the ends, is exact on affine signals and monotone in t.", "quantifier": "all times and values", "why_tests_cant": "Real-valued quantification.", "anchors": ["serpent/src/utils/utilities.cpp: interpolate, interpolate_pressure"]}
{"id": "C25", "title": "State times and IMU windows are contiguous", "statement": "For every stream of pointclouds with increasing stamps and any stereo traffic, published state times are strictly increasing, each lies in the scan it belongs to, and each scan-to-scan IMU window begins at the previous state time and ends at the new one, so that no IMU time is lost or counted twice.", "quantifier": "every stream of pointcloud, stereo and IMU messages", "why_tests_cant": "History dependent over unbounded streams.", "anchors": ["serpent/src/front_end/frontend.cpp: pointcloud_callback"]}
{"id": "C26", "title": "Barometer measurements are matched to states one-to-one in order", "statement": "Every published pressure is stamped with a state time; states are served in order, each at most once and none is skipped (except those before the first measurement, which are resolved by the first measurement); the published value is the interpolation of the two measurements surrounding the state time.", "quantifier": "every interleaving of barometer measurements and state times, each individually increasing", "why_tests_cant": "Two unbounded interleaved streams.", "anchors": ["serpent/src/front_end/frontend.cpp: barometer_callback, barometer_try_publish"]}
{"id": "C27", "title": "Barometer publishing reads an empty buffer", "statement": "If a state time is registered before the first barometer measurement arrives, the publisher must wait. It reads the front of an empty buffer (undefined behaviour, refuted).", "quantifier": "every stream in which the first state precedes the first pressure", "why_tests_cant": "Undefined behaviour need not be visible in a test run.", "anchors": ["serpent/src/front_end/frontend.cpp: barometer_try_publish, pointcloud_callback"]}
{"id": "C28", "title": "Track ids are never reused", "statement": "Over any sequence of frames, every new feature receives an id larger than all earlier ids, ids within a frame are strictly increasing, surviving features keep their id, and an id that disappears never comes back.", "quantifier": "every sequence of frames with arbitrary tracker, detector and matcher outcomes", "why_tests_cant": "All behaviours of the image-processing oracles over all sequences.", "anchors": ["serpent/src/front_end/stereo/stereo_feature_tracker.cpp: process"]}
{"id": "C29", "title": "Tracker output is index-consistent", "statement": "After each frame the left keypoints, right keypoints, ids and matches have equal length and the i-th match links the i-th left with the i-th right keypoint; every emitted match passed the configured match filters.", "quantifier": "every frame sequence and oracle outcome", "why_tests_cant": "All oracle outcomes.", "anchors": ["serpent/src/front_end/stereo/stereo_feature_tracker.cpp: process, extract_matched_keypoints, track_previous_keypoints"]}
{"id": "C30", "title": "New keypoints keep their distance from tracked ones", "statement": "After close keypoints are removed, no remaining new keypoint is within the minimum distance of a tracked keypoint and no keypoint at sufficient distance was removed; order is preserved.", "quantifier": "all keypoint sets and thresholds", "why_tests_cant": "All point sets.", "anchors": ["serpent/src/front_end/stereo/stereo_feature_tracker.cpp: remove_close_keypoints"]}
{"id": "C31", "title": "Match filters are exact", "statement": "Each match filter returns the subsequence of matches that satisfy its geometric predicate (pixel distance, epipolar and disparity sign, depth range) and nothing else; filters commute and are idempotent.", "quantifier": "all match lists and keypoint sets", "why_tests_cant": "All inputs.", "anchors": ["serpent/src/front_end/stereo/match_filters.cpp"]}
{"id": "C32", "title": "Stereo match is the best-cost candidate", "statement": "The matched right keypoint minimises the window cost among all admissible candidates, ties resolved to the first; with bidirectional matching a reported pair is mutually best. The ratio test is supposed to compare the best with the second-best cost: the code's second cost is not the second best in general (refuted), it is when the second best precedes the best.", "quantifier": "all cost functions (as oracle), all keypoint lists", "why_tests_cant": "Arbitrary cost tables of unbounded size.", "anchors": ["serpent/src/front_end/stereo/stereo_keypoint_matcher.cpp"]}
{"id": "C33", "title": "Window sums read only the image and start from zero", "statement": "For a window inside the image every access is inside the image and the sum is the sum of the pixels. The accumulator is not initialised (refuted: the result is the sum plus an arbitrary value).", "quantifier": "all images, all windows", "why_tests_cant": "Uninitialised reads are not observable deterministically.", "anchors": ["serpent/src/front_end/stereo/window_functions.cpp: window_sum, window_sum_squares, window_mean, window_within_image"]}
{"id": "C34", "title": "Stereo projection and back-projection are inverse", "statement": "Back-projecting a stereo observation with positive disparity and projecting the result returns the observation, and conversely for points with positive depth; back-projection throws exactly for zero disparity. The projection code indexes the fourth component of a 3-vector (refuted, undefined behaviour); the identity holds for the third.", "quantifier": "all calibrations with non-zero focal lengths and baseline, all observations and points", "why_tests_cant": "Real-valued universally quantified identity.", "anchors": ["serpent/include/serpent/front_end/stereo/stereo_equations-inl.hpp: stereo_backproject, stereo_project"]}
{"id": "C35", "title": "Map index consistency", "statement": "In nearby mode, after any history of map updates with distinct stamps, the i-th indexed position equals the position of the map frame whose stamp has index i; all frames in the map are indexed once; optimised path updates keep both in step.", "quantifier": "every history of map updates", "why_tests_cant": "Unbounded histories.", "anchors": ["serpent/include/serpent/mapping/mapping-inl.hpp: add_to_map, update_map"]}
{"id": "C36", "title": "Duplicate stamps desynchronise the map; past mode dereferences a null index", "statement": "Adding a frame whose stamp is already mapped must not disturb the index (refuted); updating the map in past mode must not touch the spatial index (refuted: null dereference).", "quantifier": "every map state", "why_tests_cant": "Undefined behaviour / latent corruption.", "anchors": ["serpent/include/serpent/mapping/mapping-inl.hpp: add_to_map, update_map"]}
{"id": "C37", "title": "Past-frame extraction", "statement": "Extracting n past frames not newer than a stamp returns the min(n, available) latest such frames; when no frame is old enough the code walks past the end (refuted).", "quantifier": "every map and stamp", "why_tests_cant": "All maps.", "anchors": ["serpent/include/serpent/mapping/mapping-inl.hpp: extract_past_frames"]}
{"id": "C38", "title": "Scan-to-map pairing is first-in first-out", "statement": "With scan-to-map enabled, the n-th refinement uses the n-th registered cloud and exactly its own scan-to-scan guess, whatever the interleaving of the two callbacks; the two queues always have equal length; nothing is dropped or used twice.", "quantifier": "every interleaving of scan and map callbacks", "why_tests_cant": "Concurrency of two callbacks over unbounded streams.", "anchors": ["serpent/include/serpent/front_end/lidar/registration-inl.hpp: s2s_callback, s2m_callback"]}
{"id": "C39", "title": "Point-cloud filter chain is connected", "statement": "For every set of enabled filters (at least one), a cloud published to the input passes through each enabled filter exactly once in the documented order and appears on the advertised output topic; with none enabled nothing ever appears there (refuted).", "quantifier": "all configurations and all message streams", "why_tests_cant": "Exhaustive over configurations and unbounded streams.", "anchors": ["serpent/src/front_end/lidar/pointcloud_filter.cpp: PointcloudFilter, output_topic"]}
{"id": "C40", "title": "Linearised ICP Hessians are the second derivative of the cost", "statement": "For the linearised point-to-point and point-to-plane models the assembled 6x6 matrix is half the Hessian of the squared residual, hence symmetric and positive semi-definite, and the least-squares covariance is symmetric.", "quantifier": "all points, normals and transforms", "why_tests_cant": "Polynomial identity over the reals.", "anchors": ["serpent/include/serpent/front_end/lidar/registration_covariance-inl.hpp: compute_half_d2F_dx2, lls_iid_covariance, censi_iid_covariance"]}
{"id": "C41", "title": "Adding fields preserves existing data", "statement": "For a cloud whose fields are packed (point step equals end of last field), adding fields keeps the bytes of every existing field of every point and makes the new fields disjoint from the old and from each other; with trailing padding the new field overlaps the padding and copying overruns the buffer (refuted).", "quantifier": "all layouts, sizes and contents", "why_tests_cant": "All byte layouts.", "anchors": ["pointcloud_tools/src/pclpointcloud2_utilities.cpp: add_fields, add_field"]}
{"id": "C42", "title": "Field access frame law", "statement": "Writing a field of a point and reading it returns the written bytes; every other field of every point is unchanged when fields are disjoint and inside the point step; all accesses stay inside the buffer for clouds without row padding.", "quantifier": "all clouds, fields and point indices", "why_tests_cant": "All layouts.", "anchors": ["pointcloud_tools/include/pointcloud_tools/impl/pclpointcloud2_utilities.hpp: get_field_data, set_field_data"]}
{"id": "C43", "title": "Range filter is a stable filter", "statement": "filter_max returns precisely the points whose field is at most the bound, in order, byte-identical, with consistent width, height, row step and data size.", "quantifier": "all clouds and bounds", "why_tests_cant": "All inputs.", "anchors": ["pointcloud_tools/include/pointcloud_tools/impl/pclpointcloud2_utilities.hpp: filter_max"]}
{"id": "C44", "title": "Deskewing moves each point by the relative motion", "statement": "Each deskewed point equals the point expressed at the new reference time; a point measured at the reference time does not move; if the motion is identity no point moves; number of points and all other fields are preserved.", "quantifier": "all clouds, motions and reference times in the scan", "why_tests_cant": "Real-valued universally quantified law.", "anchors": ["pointcloud_tools/include/pointcloud_tools/impl/pclpointcloud2_utilities.hpp: deskew"]}
{"id": "C45", "title": "Body frame transforms form a groupoid", "statement": "For all successfully loaded static configurations: frame-to-body inverts body-to-frame, frame-to-frame satisfies identity, inverse and chaining laws, a nested frame's transform is the product along its path, names and ids are unique, aliases resolve to the same frame, and unknown names throw.", "quantifier": "all configuration trees", "why_tests_cant": "Arbitrary trees.", "anchors": ["eigen_ros/src/body_frames.cpp"]}
{"id": "C46", "title": "Pose covariance reordering and message round trip", "statement": "Reordering a covariance at b and then at n-b restores it; it is a symmetric permutation (so symmetric and positive definite matrices stay so); pose/twist conversion to a message and back is the identity including covariance. A pose or twist made from two 3x3 blocks carries the rotational block first, and the accessors give the blocks back.", "quantifier": "all matrices and boundaries", "why_tests_cant": "Universally quantified matrix identity.", "anchors": ["eigen_ext/include/eigen_ext/covariance.hpp: reorder_covariance", "eigen_ros/src/geometry_msgs.cpp"]}
{"id": "C47", "title": "Matrix message round trip", "statement": "Writing a matrix to a fresh multi-array message and reading it back is the identity for all shapes; reusing a message makes the read throw (refuted).", "quantifier": "all shapes and contents, all message histories", "why_tests_cant": "All shapes.", "anchors": ["eigen_ros/include/eigen_ros/std_msgs.hpp: to_ros, from_ros"]}
{"id": "C48", "title": "Pose composition with covariance is functorial", "statement": "Applying transform A then B to a pose with covariance equals applying A*B; applying a transform then its inverse restores pose and covariance; symmetric stays symmetric and positive semi-definite stays so.", "quantifier": "all poses, covariances and rigid transforms", "why_tests_cant": "Real-valued matrix identities.", "anchors": ["eigen_ros/src/pose.cpp: apply_transform", "eigen_ext/include/eigen_ext/geometry.hpp: transform_adjoint, change_covariance_frame"]}
{"id": "C49", "title": "IMU interpolation", "statement": "Interpolating two IMU samples throws iff the time is outside their interval, returns linear components between the ends, equals the ends at the ends, and takes covariance and frame from the nearer sample.", "quantifier": "all samples and times", "why_tests_cant": "Real-valued quantification.", "anchors": ["eigen_ros/src/imu.cpp: interpolate"]}
{"id": "C50", "title": "Skew-symmetric conversion", "statement": "skew_symmetric(v) w = v x w, from_skew_symmetric inverts it, and from_skew_symmetric must reject every matrix that is not skew symmetric (refuted: only positive diagonals are rejected).", "quantifier": "all vectors and matrices", "why_tests_cant": "Real-valued quantification.", "anchors": ["eigen_ext/include/eigen_ext/matrix.hpp: skew_symmetric, from_skew_symmetric"]}
{"id": "C51", "title": "Polar conversion", "statement": "cartesian_to_polar should return radius and azimuth such that x = r cos(az), y = r sin(az) in the plane (refuted: a square root is missing; the azimuth is right exactly on the unit circle and on x = 0, and not a number exactly where x^2 + y^2 < |x|).", "quantifier": "all planar points", "why_tests_cant": "Real-valued quantification.", "anchors": ["eigen_ext/include/eigen_ext/geometry.hpp: cartesian_to_polar"]}
{"id": "C52", "title": "Image operations keep camera info consistent", "statement": "Rotating or flipping an image transforms the camera info so that four quarter turns, a turn and its reverse, and two equal flips are the identity; size always matches the image; the principal point follows the image's pixel map (refuted by one pixel under the integer-centre convention).", "quantifier": "all camera infos and operation sequences", "why_tests_cant": "All operation sequences.", "anchors": ["camera_tools/src/image_operations.cpp: Rotate, Flip"]}
{"id": "C53", "title": "Configuration names round-trip", "statement": "Every configuration enumeration converts to its name and back, distinct values have distinct names and every other string is rejected; unit vectors are required exactly for the method combinations that read them. A robust estimator chosen by its name is that estimator with its own parameter and reweighting scheme, refused exactly for an unknown scheme; an unknown name of an estimator is accepted (refuted).", "quantifier": "all strings", "why_tests_cant": "Infinite set of strings.", "anchors": ["serpent/src/front_end/lidar/registration_covariance.cpp", "serpent/src/front_end/stereo/stereo_factor_finder.cpp"]}
{"id": "C54", "title": "Well-formed use of the graph manager never fails", "statement": "If every call respects the calling contract (indices in range, stereo frames in increasing key order with uninterrupted feature tracks and the poses they attach to already set, every variable of a handed-over factor given a value before the optimisation that hands it over, no marginalisation) then no call ever throws or is undefined, and in particular the optimiser never receives a factor on a variable it has not been given.", "quantifier": "all histories of calls respecting the contract, of any length", "why_tests_cant": "The guarantee is about every interleaving of producers; a unit test fixes one short sequence.", "anchors": ["serpent/src/back_end/graph_manager.cpp: all public members of GraphManager and ISAM2GraphManager"]}
{"id": "C55", "title": "Published state is the held state", "statement": "Whatever a back-end callback publishes (odometry, biases, path, landmarks) is the state of one key as held by the graph manager when the callback releases it; the path lists time stamp and pose of every key up to that one. Holds for all callbacks except, when IMU factors are off, the stereo callback, which publishes before it updates the velocity (refuted there).", "quantifier": "every reachable state and every callback", "why_tests_cant": "Depends on the order of calls in every interleaving; a test sees one message.", "anchors": ["serpent/src/back_end/optimisation.cpp: publish, optimise_and_publish, update_velocity_from_transforms, stereo_features_callback, registration_callback, convert_to_path"]}
{"id": "C56", "title": "The callback pool must be larger than the number of blocking sensors", "statement": "A configuration with registration, stereo and barometer works with any number of worker threads. Refuted: with three threads (one for lidar only) a well-behaved message sequence leaves every worker asleep in a polling loop and nothing is ever optimised again; with one worker per blocking sensor plus one, progress holds.", "quantifier": "all continuations of the execution", "why_tests_cant": "The claim is that no continuation makes progress; no test run can show that.", "anchors": ["serpent/src/nodes/backend_node.cpp: main", "serpent/src/utils/utilities.cpp: protected_sleep", "serpent/src/back_end/optimisation.cpp: imu_s2s_callback, stereo_features_callback, barometer_callback"]}
{"id": "C57", "title": "Front end does not wait for odometry it has already passed", "statement": "The point cloud callback waits for the optimised odometry of the previous state. In a closed loop, where odometry of a state follows the deskewed cloud of that state, the wait is always satisfiable and the cloud is published once the IMU data reach the end of the sweep. If the back end may answer earlier (no scan registration), odometry of the next state can overtake the wait, and then no further cloud is ever published (refuted, for every continuation).", "quantifier": "every interleaving of the inputs of the front end", "why_tests_cant": "The overtaking needs a particular interleaving of two threads of two processes; a test that passes says nothing about the others.", "anchors": ["serpent/src/front_end/frontend.cpp: pointcloud_callback, optimised_odometry_callback"]}
{"id": "C58", "title": "IMU data sent to the back end reproduce the motion between states", "statement": "Under a stated contract of the environment (increasing stamps, IMU data before the first cloud and between any two states, arriving in time and never stamped exactly at the ends of a sweep, odometry only for announced states, barometer started) the front end never throws nor runs into undefined behaviour; integrating each published IMU array over its span, and the integrations behind each deskewed cloud, add up to the span and use at every instant the latest measurement received; the IMU-rate integration uses every measurement after the bias exactly once. Dropping a clause of the contract breaks it (refuted).", "quantifier": "every input sequence of the front end satisfying the contract", "why_tests_cant": "Needs all interleavings and all time stamps; failures need coincidences of stamps.", "anchors": ["serpent/src/front_end/frontend.cpp", "serpent/src/utils/utilities.cpp: integrate_imu, delete_old_measurements"]}
{"id": "C59", "title": "Tracker statistics and failures are consistent", "statement": "The statistics returned with each frame agree with the tracks: total = tracked + new, the largest id is the last one given out, the longest-lived track is the one with the least id, the frame number counts the calls with images of equal size. On the first frame two counters are never written (refuted). A call is never undefined, and fails only for images of different size or a failing cost function; a failed call still advances the frame number and may drop tracks (refuted atomicity).", "quantifier": "every reachable tracker state, every frame", "why_tests_cant": "All histories of frames and oracle outcomes.", "anchors": ["serpent/src/front_end/stereo/stereo_feature_tracker.cpp: process", "serpent/include/serpent/front_end/stereo/stereo_feature_tracker.hpp: Statistics"]}
{"id": "C60", "title": "Stereo features reach the graph manager in the form it needs", "statement": "However the back end subsamples the published feature messages, converting each into its map never throws for a duplicate id, ids are non-negative, and over the sequence of maps an id that disappears never returns: exactly the calling contract under which the stereo part of the graph manager never fails.", "quantifier": "every frame sequence, every increasing selection of the published messages", "why_tests_cant": "Composition of two components over unbounded histories.", "anchors": ["serpent/src/front_end/stereo/stereo_factor_finder.cpp: to_ros", "serpent/src/back_end/optimisation.cpp: from_ros, stereo_features_callback", "serpent/src/back_end/graph_manager.cpp: create_stereo_factors_and_values"]}
{"id": "C61", "title": "Matching costs measure what they are named after", "statement": "On windows inside two grey images: SAD and SSD are symmetric, non-negative and zero exactly for identical windows, SAD satisfies the triangle inequality; zero-mean SAD is zero exactly when the windows differ by a constant brightness, locally scaled SAD exactly when they differ by a gain; the negative normalised cross-correlation lies in [-1, 1] and is -1 exactly for positively proportional windows. The last three hold for accumulators starting at zero, which the code does not guarantee: two identical windows then cost the difference of the initial values (refuted).", "quantifier": "all images, windows and positions", "why_tests_cant": "Universally quantified over pixel data; equality case of Cauchy-Schwarz.", "anchors": ["serpent/src/front_end/stereo/stereo_cost_functions.cpp", "serpent/src/front_end/stereo/window_functions.cpp"]}
{"id": "C62", "title": "The local map consists of the nearest keyframes, seen from the new cloud", "statement": "In nearby mode one map update publishes exactly min(n, keyframes) distinct keyframes, none of the others being nearer to the new cloud, each transformed into the frame of the new cloud; moved back by the pose of the cloud the points coincide with those the global map shows. The global map and the pose graph contain every keyframe exactly once, with its latest pose and the cloud received under its stamp.", "quantifier": "every history of map updates with distinct stamps, every contract-abiding nearest neighbour search", "why_tests_cant": "Unbounded histories of corrections.", "anchors": ["serpent/include/serpent/mapping/mapping-inl.hpp: extract_nearby_frames, publish_map_service_callback, publish_pose_graph_service_callback"]}
{"id": "C63", "title": "Map updates in time order never fail in nearby mode", "statement": "If clouds arrive in time order and each path names the stamp of its cloud once, every map update publishes a local map: no lookup fails and no frame from the future is met. A path that does not name the cloud is refused: no map is published and no keyframe added. With clouds out of order an update throws although the cloud has already been added (refuted).", "quantifier": "every orderly history", "why_tests_cant": "Unbounded histories.", "anchors": ["serpent/include/serpent/mapping/mapping-inl.hpp: map_update_callback"]}
{"id": "C64", "title": "The switch for filtering the global map is honoured", "statement": "The global map is filtered iff mapping/voxel_grid_filter/enabled_global is set. Refuted: the switch is read and never used, the local switch decides.", "quantifier": "every map", "why_tests_cant": "A test would have to compare two configurations on the same map.", "anchors": ["serpent/include/serpent/mapping/mapping-inl.hpp: publish_map_service_callback"]}
{"id": "C65", "title": "Each scan is refined against the map of the frame its guess refers to", "statement": "A scan is registered against its predecessor with its own initial guess. If the n-th map received is the local map of the n-th scan, every refinement starts from a guess expressed in the frame of its map. The pairing is by count only: after one lost map message scans are refined against the map of another frame (refuted).", "quantifier": "every interleaving and every message stream", "why_tests_cant": "A lost message shifts all later pairs; no single test sees it.", "anchors": ["serpent/include/serpent/front_end/lidar/registration-inl.hpp: s2s_callback, s2m_callback"]}
{"id": "C66", "title": "Switching scan-to-map off leaves the workers free", "statement": "With scan-to-map off every scan-to-scan result is published in order, and local maps cost nothing. The first part holds; the second is refuted: the subscription remains, and the first local map puts a worker to sleep for as long as the node runs. Shutting down while a map callback waits leaves the mutex locked for ever (refuted).", "quantifier": "every continuation of every execution", "why_tests_cant": "Quantifies over all continuations.", "anchors": ["serpent/include/serpent/front_end/lidar/registration-inl.hpp: s2m_callback", "serpent/src/utils/utilities.cpp: protected_sleep"]}
{"id": "C67", "title": "Documented parameters take effect", "statement": "Setting a documented parameter of the filters, registration or stereo tracking changes the configuration for some server, and the filter settings are the documented values. Every setting of the two registration methods, of the registration covariance (standard deviations enter squared) and of the stereo front end is the value of its own key, or the default; the map matcher exists exactly if it is switched on; the methods are refused exactly for an unknown name of a method or of an option the method has. Exactly fourteen documented keys never have an effect (refuted): the settings of statistical outlier removal, of pyramidal optical flow, the SIFT contrast threshold and the gradient tolerances. Integer settings given as a number that is not an integer are rounded (halves up, negative numbers down), values of another kind fall back to the default; the window of the optical flow is taken from a list only if every element is a number, and a list of fewer than two stops the node.", "quantifier": "every parameter server and every documented key", "why_tests_cant": "That a key never matters quantifies over all servers and values.", "anchors": ["serpent/config/filter_default.yaml", "serpent/config/tuning_default.yaml", "serpent/src/front_end/lidar/pointcloud_filter.cpp: PointcloudFilter", "serpent/src/front_end/stereo/stereo_factor_finder.cpp: StereoFactorFinder"]}
{"id": "C68", "title": "The body filter removes points within the body region", "statement": "With the body filter on, no point within the configured region is passed on. Refuted: in every configuration exactly the points within the region are passed on, and all others removed.", "quantifier": "every configuration, cloud and region", "why_tests_cant": "All regions and clouds.", "anchors": ["serpent/src/front_end/lidar/pointcloud_filter.cpp: body_filter_callback", "serpent/config/filter_default.yaml: body_filter"]}
{"id": "C69", "title": "The formatter publishes the cloud it was given, in the units it promises", "statement": "Over any sequence of messages exactly the first is dropped when that is configured, and none otherwise. For a custom sensor the field time becomes t; for an Ouster sensor integer t and range become scaled floats and nothing else of a point changes. With the time filter on, exactly the points within the bound are published, in order; the frame is the configured one. A float time field of an Ouster cloud is published unscaled (refuted).", "quantifier": "all message sequences, clouds and configurations", "why_tests_cant": "All byte layouts and all contents.", "anchors": ["serpent/src/front_end/lidar/pointcloud_formatter.cpp: PointcloudFormatter::format"]}
{"id": "C70", "title": "Casting and scaling a field changes that field only", "statement": "Casting a field to a type of the same size rewrites each value as its conversion, updates the field type and leaves every other byte of every point alone; scaling multiplies each value. Missing fields, unknown types and types of another size are refused. Cast with scale on a field that already has the type applies no scale (refuted).", "quantifier": "all clouds, fields, types and scales", "why_tests_cant": "All layouts and contents.", "anchors": ["pointcloud_tools/include/pointcloud_tools/impl/pclpointcloud2_utilities.hpp: cast_field, cast_field_with_scale, scale_field"]}
{"id": "C71", "title": "Unit vectors point at their points", "statement": "Adding unit vector fields gives every point the direction of its position, of norm one before it is stored, and keeps all other fields; it throws exactly when some point is at the origin.", "quantifier": "all packed clouds without unit vector fields", "why_tests_cant": "All clouds and positions.", "anchors": ["pointcloud_tools/src/pclpointcloud2_utilities.cpp: add_unit_vectors", "eigen_ext/include/eigen_ext/matrix.hpp: safe_normalise"]}
{"id": "C72", "title": "Field statistics", "statement": "Minimum, maximum, mean and variance of a field are those of the list of its values; minimum \u2264 mean \u2264 maximum; the variance is zero exactly when all values agree; an empty cloud throws.", "quantifier": "all clouds and fields", "why_tests_cant": "All contents and sizes.", "anchors": ["pointcloud_tools/src/pclpointcloud2_utilities.cpp: statistics", "pointcloud_tools/include/pointcloud_tools/impl/pclpointcloud2_utilities.hpp: max, min, mean, variance"]}
{"id": "C73", "title": "The covariance check decides positive definiteness", "statement": "With the default precision, a matrix passes the covariance check exactly if it is square, finite, symmetric and positive definite. With a precision above zero it passes exactly if the mirror image of its lower triangle is positive definite and mirrored entries differ by at most that precision; such a matrix need not be positive definite (refuted). Every matrix that passes has a positive diagonal.", "quantifier": "all sizes, matrices and precisions", "why_tests_cant": "Positive definiteness quantifies over all vectors.", "anchors": ["eigen_ext/include/eigen_ext/covariance.hpp: is_valid_covariance, is_positive_definite, is_symmetric, non_zero_diagonals"]}
{"id": "C74", "title": "Composition of uncertain transforms", "statement": "Composing independent uncertain transforms does not depend on the grouping; whenever the joint covariance of the two is symmetric (positive semi-definite), so is the composed one. Relative transforms chain, and a relative transform expressed in another frame is the relative transform of the poses expressed in that frame.", "quantifier": "all transforms, covariances and cross covariances", "why_tests_cant": "Identities over all real matrices.", "anchors": ["eigen_ext/include/eigen_ext/geometry.hpp: compose_transform_covariance, relative_transform, change_relative_transform_frame, rotate_point_covariance"]}
{"id": "C75", "title": "Changing the frame of an IMU sample", "statement": "Changing the frame and changing it back restores the sample. Angular velocity and acceleration, expressed in the world by the orientation, do not change, and their covariances are rotated with them. The orientation covariance should be rotated the same way (refuted: it is rotated by the inverse).", "quantifier": "all samples and rotations", "why_tests_cant": "Identities over all real matrices.", "anchors": ["eigen_ros/src/imu.cpp: Imu::change_frame"]}
{"id": "C76", "title": "The published registration is the motion of the body", "statement": "A lidar motion published by registration and read back by the receiver is that motion expressed in the body frame, with the stamp of the cloud; changing it back gives the lidar motion; the covariance is moved by the same change of frame, and is a valid covariance exactly if the estimate was.", "quantifier": "all extrinsics, motions and covariances", "why_tests_cant": "Identities over all real matrices.", "anchors": ["serpent/include/serpent/front_end/lidar/registration-inl.hpp: Registration::publish_refined_transform", "eigen_ros/src/geometry_msgs.cpp: to_ros, from_ros", "eigen_ext/include/eigen_ext/geometry.hpp: change_covariance_frame"]}
{"id": "C77", "title": "Which body frame configurations load", "statement": "A configuration loads exactly if it names one body frame and, over the whole tree, names are distinct, frame ids and aliases are distinct, every setting has its type, dynamic frames have no other settings and no frames below them, and every looked-up transform is available; anything else is refused by an exception, never by undefined behaviour. Settings of the body frame other than its id have no effect; a translation given as a list has no effect. A rotation without w is half a turn, although the documented default of w is 1, and dynamic does not override the other settings (both refuted).", "quantifier": "all configuration trees and tf contents", "why_tests_cant": "Arbitrary trees; the exact set of accepted inputs.", "anchors": ["eigen_ros/src/body_frames.cpp: BodyFrames, process_frames, transform_from_node"]}
{"id": "C78", "title": "Static transforms broadcast for body frames", "statement": "Once the broadcast succeeds, each frame id and alias is the child of exactly one transform, the body never, frames looked up in tf never; static frames carry their transform from the body and aliases the identity from their frame. The broadcast succeeds exactly if every dynamic frame is available in tf at start. Dynamic frames should not be sent as static transforms (refuted), nor prevent the others from being sent (refuted).", "quantifier": "all loaded configurations and tf contents", "why_tests_cant": "Arbitrary trees.", "anchors": ["eigen_ros/src/body_frames_tf.cpp: BodyFramesTf"]}
{"id": "C79", "title": "Nonlinear ICP derivatives are exact", "statement": "For the nonlinear point-to-point and point-to-plane models every entry of the two generated 6x6 matrices is half the second derivative of the squared residual of the moved point, for every rotation vector except zero; the sums and blocks over all correspondences are those of the whole cost; the rotation vector is taken from the transform and rotates as the transform does. Where the correspondences fit exactly the least-squares covariance is positive definite. At the identity rotation no covariance comes out, and away from a fit the least-squares result need not be a covariance (both shown).", "quantifier": "all points, normals, rotations and translations", "why_tests_cant": "144 generated expressions; derivatives for all reals.", "anchors": ["serpent/include/serpent/front_end/lidar/registration_covariance-inl.hpp: PointToPointIcpNonlinearModel, PointToPlaneIcpNonlinearModel", "eigen_ext/include/eigen_ext/precomputed_transform_components.hpp: PrecomputedTransformComponents"]}
{"id": "C80", "title": "When a registration determines its covariance", "statement": "With the linearised models a covariance exists exactly if the matched points pin the motion down: not all on a line (point-to-point), no infinitesimal motion that slides every point in its plane (point-to-plane). It is then positive definite, and Censi's estimate is never smaller than the least-squares one for the same noise.", "quantifier": "all correspondences, transforms and noise", "why_tests_cant": "Degenerate geometry is a measure-zero set.", "anchors": ["serpent/include/serpent/front_end/lidar/registration_covariance-inl.hpp: lls_iid_covariance, censi_iid_covariance"]}
{"id": "C81", "title": "Censi's covariance follows the formula", "statement": "The point-noise and range-noise estimates equal inverse Hessian, mixed derivative, measurement covariance, mixed derivative transposed, inverse Hessian, with the derivatives of the whole registration cost; they are symmetric and positive semi-definite, as is the range-and-bias estimate. The latter should use a measurement covariance of independent errors along each ray plus a common one (refuted: the independent part is spread per coordinate).", "quantifier": "all correspondences, transforms and noise", "why_tests_cant": "Matrix identities for any number of points.", "anchors": ["serpent/include/serpent/front_end/lidar/registration_covariance-inl.hpp: censi_iid_covariance, censi_range_covariance, censi_range_bias_covariance"]}
{"id": "C82", "title": "Settings select the registration covariance", "statement": "Every accepted configuration yields an estimator that can be called: no unset variance or null function is used, and with the point type chosen by the pipeline it never throws. The result is the one the settings name: constant diagonal of squared noises, Censi or least squares with the named model, noise from the setting, leaf size or ranges. It is symmetric, and positive semi-definite unless least squares is combined with a nonlinear model.", "quantifier": "all parameter files, clouds and transforms", "why_tests_cant": "All combinations of settings, all clouds.", "anchors": ["serpent/include/serpent/front_end/lidar/registration-inl.hpp: covariance_from_registration, create_covariance_function_bindings, Registration"]}
{"id": "C83", "title": "Pairs of points behind the covariance", "statement": "Every source point that has a target point within the maximum distance is paired once, with a nearest target point, and no other is; the two points read are the two points of the pair. The reciprocal variant pairs every target point with a nearest source point. With a selection of source indices the pair should name the selected point (refuted: it names the position in the selection), and reciprocal pairs should be mutual (refuted).", "quantifier": "all clouds, transforms and distances", "why_tests_cant": "Arbitrary clouds; ties.", "anchors": ["pointcloud_tools/include/pointcloud_tools/impl/registration_utilities.hpp: compute_registration_correspondences"]}
{"id": "C84", "title": "Rotation angles of image operations", "statement": "A clockwise rotation is accepted exactly for positive angles that are no multiple of 360 degrees, an anticlockwise one for angles below 360 that are no multiple of it; anticlockwise by an angle undoes clockwise by it. The documented angle 0 should be accepted (refuted), and an angle that is no multiple of 90 should be refused (refuted: it loads and the first image is undefined behaviour).", "quantifier": "all integer angles", "why_tests_cant": "All integers, overflow included.", "anchors": ["camera_tools/src/image_operations.cpp: Rotate", "camera_tools/src/split_image.cpp: parse_configuration"]}
{"id": "C85", "title": "Configuration of the image splitter", "statement": "The configuration loads exactly if it is a list of structs with a region and settings of the right types, a missing setting counting as zero or empty; the camera info, region and operations are then those written. Loading is undefined behaviour only if operations is no struct or an anticlockwise angle overflows. Of settings written twice the last counts. The operations act in the order flip, anticlockwise, clockwise, whatever order they are written in. They should act as written (refuted), a list of operations should be refused (refuted: undefined behaviour), and whole or fractional numbers should be taken alike (refuted).", "quantifier": "all configuration trees", "why_tests_cant": "Arbitrary trees; the exact set of accepted inputs.", "anchors": ["camera_tools/src/split_image.cpp: parse_configuration"]}
{"id": "C86", "title": "What the image splitter publishes", "statement": "For every message and every configuration whose region fits, one image and one camera info are published, in the order of the configuration, with the stamp of the message, the frame of the configuration and the same size; every pixel is the pixel of the region moved by the operations, and the camera info projects onto the moved picture. The first region that does not fit ends the node after the earlier ones were served. The rectification matrix published is zero.", "quantifier": "all messages, configurations and operation sequences", "why_tests_cant": "All pictures and sequences.", "anchors": ["camera_tools/src/split_image.cpp: split"]}
{"id": "C87", "title": "Camera info publisher and frame change", "statement": "Each image is answered by one camera info with its header and size and the configured lens; P projects points of the left camera's frame into a camera displaced by the baseline. Changing the frame id changes the frame of image and info and nothing else.", "quantifier": "all image sequences and parameters", "why_tests_cant": "All sequences.", "anchors": ["camera_tools/src/publish_info.cpp: PublishInfo", "camera_tools/src/change_frame_id.cpp: ChangeFrameId"]}
{"id": "C88", "title": "Rotation vectors", "statement": "A rotation stored as a vector (axis times angle) with a position gives back the rotation and position it was made from; its angle is at most pi, and turning steadily at that vector for one unit of time is the rotation. A vector shorter than pi survives the conversion to a quaternion and back. The matrix, angle, sine and cosine precomputed from a transform or from a non-zero vector belong to the same rotation. The linear rates between two poses, held for the time difference in the frame of the first pose, lead to the second; a time difference that is not positive is refused. The zero vector should give the identity (refuted: not a number), and the rates should be those of a body moving in its own frame (refuted).", "quantifier": "all unit quaternions, rigid motions, vectors and time differences", "why_tests_cant": "Real-valued inputs; half turns and the identity are limit cases; the rates are a statement on trajectories.", "anchors": ["pointcloud_tools/src/point_types.cpp: PointAngleAxis", "pointcloud_tools/include/pointcloud_tools/point_types.hpp: PointAngleAxis", "eigen_ext/include/eigen_ext/geometry.hpp: linear_rates", "eigen_ext/include/eigen_ext/precomputed_transform_components.hpp: PrecomputedTransformComponents"]}
{"id": "C89", "title": "Moving clouds with normals, unit vectors and covariances", "statement": "Moving a cloud by a rigid transform keeps header, size and order and every field that is not geometric; positions are mapped by the transform, normals and unit vectors by its rotation, and the variance of a covariance along a turned direction is the old variance. Points without a position are kept as they are in a cloud that says it may have such points, and no finite position is made up in one that says it has none. Moving twice is moving by the composition, and moving back restores the cloud. The result does not depend on the former content of the output cloud, which fails when fields are not copied (refuted).", "quantifier": "all clouds, rigid transforms and output clouds", "why_tests_cant": "Clouds of any length with values that are not finite anywhere.", "anchors": ["pointcloud_tools/include/pointcloud_tools/impl/pclpointcloud_transform.hpp: transform_pointcloud", "serpent/include/serpent/front_end/lidar/transform_pointcloud-inl.hpp"]}
{"id": "C90", "title": "Cloud distances and checks", "statement": "For each pair of clouds the distance node publishes one cloud with the header of the source, whose i-th point is the i-th source point with its distance to the moved target, which is also the distance in the target's own frame; it throws exactly if the search finds no neighbour or the transform is not known. The number of bad normals is the number of normals whose length differs from one by more than the threshold. A cloud of not-a-number normals should not count as fine (refuted), times are converted to seconds without loss for floating point fields and rounded down for integer fields, though fractions should be kept for every field type (refuted for integers), and a large source should be served (refuted: the buffer size wraps at 2^28 points and the first write is out of bounds).", "quantifier": "all clouds, transforms and thresholds", "why_tests_cant": "All sizes up to the 32 bit limit, and beyond it.", "anchors": ["pointcloud_tools/include/pointcloud_tools/impl/compute_distances.hpp: callback, compute_distances, transform_target", "pointcloud_tools/src/compute_distances_main.cpp: main", "pointcloud_tools/include/pointcloud_tools/impl/pclpointcloud_utilities.hpp: check_normals, convert_ns_to_s"]}
{"id": "C91", "title": "Combining relative motions", "statement": "After each relative motion received, the published odometry is the product of all motions so far in order of arrival, stamped as the message, and the path has one pose per message, each as published. The type parameter chooses among three message types. The uncertainty of the motions should be carried along (refuted: the published covariance is zero) and an unknown type should be refused (refuted: nothing is subscribed to).", "quantifier": "all sequences of messages with unit orientations", "why_tests_cant": "A product over sequences of any length; real-valued motions.", "anchors": ["navigation_tools/src/combine_transforms.cpp: CombineTransforms, apply_transform", "navigation_tools/include/navigation_tools/combine_transforms.hpp: callback"]}
{"id": "C92", "title": "Integrating IMU messages", "statement": "The first message only sets the initial orientation. Every later one is integrated over the time since the message before it, the times add up to the time since the first, and what is published is the state predicted from the initial one and all measurements so far, with stamp, path and the covariances in the order of the message. Two messages in a row with the same stamp are refused. If GTSAM throws for steps that are not positive, any message not later than the one before is refused, one with stamp zero included. If it does not, a message with stamp zero should start afresh (refuted: the state is set anew but the measurements are kept), and a message from the past should be refused (refuted).", "quantifier": "all message sequences, integrators and settings", "why_tests_cant": "Sequences of any length and an arbitrary integrator.", "anchors": ["navigation_tools/src/integrate_imu.cpp: IntegrateImu, integrate"]}
{"id": "C93", "title": "Turning and showing IMU messages, odometry as transform", "statement": "Turning an IMU message by a rotation turns its orientation and leaves its measurements; the frame changes only if asked for. The covariance of the orientation should remain a covariance (refuted). The analysis broadcasts the sensor's orientation and, if asked, a second frame with the composed rotation; that frame is placed as the settings say relative to the sensor exactly if its offset is not moved by the orientation, which need not hold (refuted). Settings that are too short are refused. Odometry is broadcast as the transform it states.", "quantifier": "all messages, rotations and settings", "why_tests_cant": "Real-valued rotations.", "anchors": ["imu_tools/src/imu_transform.cpp: callback", "imu_tools/src/imu_analysis.cpp: ImuAnalyser", "navigation_tools/src/odometry_to_tf.cpp: odometry_callback"]}
{"id": "C94", "title": "Serpent messages", "statement": "Biases, arrays of IMU measurements and poses written to a message and read back are the same, with stamp and frame as given. Reading an array into a list should leave just the array (refuted: it is appended).", "quantifier": "all biases, arrays and rigid motions", "why_tests_cant": "Arrays of any length, real values, covariances with entries that are not finite.", "anchors": ["serpent/src/utils/ros_conversion.cpp: from_ros, to_ros", "eigen_gtsam/src/geometry.cpp: to_gtsam, to_eigen"]}
{"id": "C95", "title": "Metrics", "statement": "The metrics are computed from the last registration, the last path and the last two poses received: the largest positive covariance entry with its first place, distance between the poses, and angle between them if the quaternions are on the same side. They are -1 before there is a message and the node fails exactly when the last path has fewer than two poses. Variances should carry their proper names (refuted: rotation and translation are swapped), the same orientation should give angle zero (refuted), an orientation that is not a number should not count as no turn (refuted), and a pose should not be compared with itself while a new one comes in (refuted).", "quantifier": "all message sequences", "why_tests_cant": "All sequences and all real values; the last claim is about interleavings.", "anchors": ["serpent/scripts/metrics_node.py: get_var_diag, get_var_outlier, get_rel_pose, get_metrics, optimized_pose_cb"]}
{"id": "C96", "title": "Repaired recordings", "statement": "The repaired recording has the same messages in the same order with the same recording times, contents and topics; only missing stamps of clouds are filled in. After a true stamp the missing ones follow at the period, leading ones count from zero, none is missing afterwards, the count reported is the number filled in, and repairing again changes nothing. The stamps increase exactly if the true ones leave room. They should always increase when the true ones do (refuted), other topics should not be touched (refuted for a topic whose name is part of that of the clouds), and leading ones should be close to the first true stamp (refuted).", "quantifier": "all recordings", "why_tests_cant": "Recordings of any length with stamps missing anywhere.", "anchors": ["snowboard/scripts/repair_ouster_timestamps.py"]}
{"id": "C97", "title": "Live odometry", "statement": "Until the back end has sent a state, IMU messages produce no odometry. After that every IMU message produces one: the pose predicted from the last optimised state by integrating exactly the IMU messages later than it, each over the time since the one before (the first since the state), with the noise of the message closest to the state, or the configured noise when the settings overwrite it. It does not matter whether those messages came before or after the state, nor which old messages were dropped. Stamp and frames are right; the covariances sent are all zero.", "quantifier": "all sequences of IMU messages in order, optimised states and trimming of the buffer; any integrator", "why_tests_cant": "Arbitrary interleavings of three kinds of events of any length.", "anchors": ["serpent/src/front_end/frontend.cpp: imu_callback, integrate_imu, pose_callback", "serpent/src/utils/utilities.cpp: delete_old_messages"]}
{"id": "C98", "title": "Velocities of the live odometry", "statement": "The twist of the live odometry should be that of the body in its own axes. If the gyroscope reads the rate plus the bias that the back end found, the angular velocity sent is the rate of the body exactly if the bias is zero (refuted otherwise: the bias is added once more instead of taken away). The linear velocity is that of the body in the map's axes, right exactly if the attitude does not turn it (refuted otherwise).", "quantifier": "all runs and gyroscope biases", "why_tests_cant": "An equivalence over real-valued rates and attitudes.", "anchors": ["serpent/src/front_end/frontend.cpp: imu_callback"]}
{"id": "C99", "title": "Pose of base_link", "statement": "For every optimised state a transform to base_link is broadcast whose parent, child and stamp are right and which is the pose of the body times the place of base_link on the body. The pose message sent along with it should say the same: it is the pose of the body frame, right exactly if base_link stands on the body frame (refuted otherwise). A failing lookup is reported and never stops the node.", "quantifier": "all body frame configurations and states", "why_tests_cant": "All configurations; real-valued transforms.", "anchors": ["serpent/src/front_end/frontend.cpp: pose_callback"]}
{"id": "C100", "title": "First state", "statement": "The orientation of the first state turns a direction of the body as the IMU's orientation turns it from the IMU's axes, and then, for an IMU that works in north-east-down, to north-west-up. An IMU without orientation gives the identity. Position, velocity and uncertainties are those configured. The angular velocity should be that of the body (refuted: it is left in the axes of the IMU).", "quantifier": "all placements of the IMU, orientations and settings", "why_tests_cant": "Real-valued rotations, all settings.", "anchors": ["serpent/src/front_end/frontend.cpp: body_frame_orientation, publish_initial_odometry, pointcloud_callback"]}
{"id": "C101", "title": "Motion of the lidar", "statement": "The motion that the back end gives to the registration is the motion of the lidar between the two states. A cloud deskewed with the motion of the lidar shows a still point where it is seen at the time asked for, at every time of the sweep. The front end should deskew with that motion: it does exactly if the placement of the lidar applied twice commutes with the motion of the body, in particular if neither turns; otherwise (refuted with a turned lidar on a body that moves straight) still points are misplaced. Switched off, translation or rotation is left out.", "quantifier": "all placements of the lidar and pairs of states", "why_tests_cant": "An equivalence over all rigid motions.", "anchors": ["serpent/src/front_end/frontend.cpp: pointcloud_callback", "serpent/src/back_end/optimisation.cpp: publish_imu_transform", "pointcloud_tools/src/pclpointcloud2_utilities.cpp: deskew"]}
{"id": "C102", "title": "Wiring of the system", "statement": "In every configuration that starts, every subscription of every module is either one of the sensor inputs that the enabled factors ask for, published by nobody inside, or is published inside by exactly one module with the message type expected. No two publishers share a topic. All inputs are read, the documented outputs are published and nothing else under output/; with registration and without debugging everything published is read or an output. All modules built for a point type have the same one. The metrics script finds its topics. The topics recorded by default should have a publisher (refuted: the tracker's statistics need a debug switch, the distance statistics a tool that is not started).", "quantifier": "all parameter sets", "why_tests_cant": "2^17 combinations of switches and any parameter values; a mistyped topic name is silent in ROS.", "anchors": ["serpent/src/nodes/node.cpp: main", "serpent/src/front_end/frontend.cpp: Frontend", "serpent/src/back_end/optimisation.cpp: Optimisation", "serpent/include/serpent/mapping/mapping-inl.hpp: Mapping", "serpent/include/serpent/front_end/lidar/registration-inl.hpp: Registration", "serpent/src/front_end/stereo/stereo_factor_finder.cpp: StereoFactorFinder", "serpent/launch/record.launch", "serpent/scripts/metrics_node.py"]}
{"id": "C103", "title": "Start-up", "statement": "The system starts exactly if: the body frames load, contain base_link and place the imu (the left camera with stereo factors, the lidar with registration); motion correction is fully on with stereo factors; the noise settings used are non-zero; names are known; window, frame number, matcher window, ratio and thread count are in range. One process starts exactly if the two separate processes both start, and they then hold the same modules. An unknown robust estimator should be refused (refuted: the node starts with a null estimator).", "quantifier": "all parameter sets, frame configurations and answers of tf", "why_tests_cant": "All configurations; equality of three programs that build the modules separately.", "anchors": ["serpent/src/nodes/node.cpp: main", "serpent/src/nodes/frontend_node.cpp: main", "serpent/src/nodes/backend_node.cpp: main", "serpent/src/nodes/stereo_pipeline_node.cpp: main"]}
{"id": "C104", "title": "The pipeline never fails", "statement": "Front end, registration and back end connected by their topics, every message taking any time on its way and all callbacks interleaved in any way: if the sensors send IMU data in time and stamps increase, and the numerical work succeeds, then no callback throws or reads outside a buffer, no back end callback is left by an exception, and each part only ever receives what its own properties assume (odometry for announced states not older than the newest cloud, IMU arrays for consecutive states after the first odometry, registration results for consecutive states whose transform was published, barometer messages at state times in order). Odometry is published once per announced state, in order, with its stamp.", "quantifier": "all sensor streams, interleavings and delays of the whole pipeline, all configurations of sensors with at least one that makes the back end optimise, no marginalisation", "why_tests_cant": "Assumptions that each component makes about the others form a cycle; every interleaving of three components and seven topics.", "anchors": ["serpent/src/front_end/frontend.cpp: pointcloud_callback, correct_imu_odometry", "serpent/include/serpent/front_end/lidar/registration-inl.hpp: s2s_callback, s2m_callback", "serpent/src/back_end/optimisation.cpp: initial_odometry_callback, imu_s2s_callback, registration_callback, barometer_callback"]}
{"id": "C105", "title": "The pipeline does not wait for itself", "statement": "With registration factors the back end never publishes more odometry than one message or one per cloud published, so the odometry a waiting point cloud callback sees is never newer than the one it waits for; when everything has come to rest (messages delivered, callbacks idle or only polling) there is exactly one odometry message per published cloud and the point cloud callback is not waiting for odometry. Odometry newer than the awaited one stops the front end for good, whatever follows. Without registration factors (IMU or stereo only) the pipeline should go on too (refuted: a run of the whole pipeline after which no cloud is ever published again in any continuation).", "quantifier": "all executions of the pipeline", "why_tests_cant": "A race between three components; a deadlock can only be excluded over all interleavings, and a stop for good only over all continuations.", "anchors": ["serpent/src/front_end/frontend.cpp: pointcloud_callback, correct_imu_odometry", "serpent/include/serpent/front_end/lidar/registration-inl.hpp: s2s_callback, s2m_callback", "serpent/src/back_end/optimisation.cpp: update, registration_callback, imu_s2s_callback"]}
{"id": "C106", "title": "Frames of refined registrations", "statement": "In the pipeline every refined registration result is for a published cloud whose predicted transform had been published, starts from the registration against the cloud before it, and is computed against the local map of the state of that cloud, whose odometry had been published.", "quantifier": "all executions of the pipeline", "why_tests_cant": "The pairing of scans and maps crosses three asynchronous components.", "anchors": ["serpent/include/serpent/front_end/lidar/registration-inl.hpp: s2s_callback, s2m_callback", "serpent/include/serpent/mapping/mapping-inl.hpp: map_update_callback"]}
{"id": "C107", "title": "Every published cloud is registered and optimised", "statement": "In every fair infinite execution of the pipeline with registration factors (whoever keeps becoming able to act eventually acts: message deliveries, registration and back end callbacks; with stereo, features keep up with the clouds): for every cloud the front end publishes the predicted transform is published, from the second on a refined registration result is published in order, and odometry with its stamp reaches the front end. A point cloud callback waiting for odometry eventually sees exactly the odometry it waits for, and if the callback keeps being scheduled and IMU data (and images, with stereo) reach past every sweep then every point cloud callback returns, having published its cloud.", "quantifier": "all fair infinite executions of the pipeline, all configurations with registration factors and enough worker threads, all sensor streams, fewer than 2^31 states", "why_tests_cant": "Liveness over infinite schedules of three components; no finite test can show that something always eventually happens.", "anchors": ["serpent/src/front_end/frontend.cpp: pointcloud_callback, correct_imu_odometry", "serpent/include/serpent/front_end/lidar/registration-inl.hpp: s2s_callback, s2m_callback", "serpent/src/back_end/optimisation.cpp: update, registration_callback, imu_s2s_callback, stereo_features_callback"]}
{"id": "C108", "title": "Lidar point times through float", "statement": "For every sweep (point times unsigned 32 bit nanoseconds): the times handed on in seconds as float differ from the true ones by at most their rounding (2^-24 relative), keep the order, and within the first 125 ms tell points apart that are at least 8 ns apart (not all points: refuted). The sweep duration used for deskewing is within 4 ns of the latest point for sweeps under 125 ms, zero exactly when all points are at time zero (not exact: refuted). The fraction of the sweep at which a point is placed is 0 at time zero, ordered, and at most 1 + 1/duration in ns; it can exceed 1 (refuted), so the last points are extrapolated. The time filter decides correctly outside a relative margin of 2^-22 around its limit.", "quantifier": "all lists of point times, all limits of the filter", "why_tests_cant": "Rounding behaviour over all 32 bit times and all sets of points; a test samples a few and compares with a tolerance.", "anchors": ["serpent/src/front_end/lidar/pointcloud_formatter.cpp: PointcloudFormatter::format", "pointcloud_tools/include/pointcloud_tools/impl/pclpointcloud2_utilities.hpp: cast_field_with_scale, max, filter_max", "serpent/src/front_end/frontend.cpp: pointcloud_callback", "pointcloud_tools/src/pclpointcloud2_utilities.cpp: deskew"]}
{"id": "C109", "title": "Interpolation between messages in double precision", "statement": "For every pair of messages and every time between them the interpolation fraction computed in double precision is in [0,1], exactly 0 at the first and exactly 1 at the second message, ordered in time, and within 12 units of 2^-53 of the true fraction. For messages less than a second apart the covariances and the frame are those of the first message exactly when the time is not past the middle; for longer gaps this fails (refuted). The steps of an IMU preintegration add up to the time covered within a relative 2^-51.", "quantifier": "all stamps, all times between them, all partitions of an interval", "why_tests_cant": "Exactness and order of rounded results over all nanosecond stamps; the failing middle beyond one second is found only for particular stamps.", "anchors": ["eigen_ros/src/imu.cpp: interpolate", "serpent/include/serpent/utils/utilities-inl.hpp: interpolate", "serpent/src/utils/utilities.cpp: integrate_imu"]}
{"id": "C110", "title": "Interpolated pressures in double precision", "statement": "For every two pressures (and their variances) and every fraction in [0,1]: the interpolated value is exactly the first at 0 and the second at 1, is within 2^-50 of the larger value of the exact interpolation, therefore leaves the interval between the two by rounding only, keeps the order when both inputs grow, and is positive for positive inputs. It need not lie between the two: two equal pressures can give a different pressure (refuted).", "quantifier": "all representable pressures and variances, all fractions", "why_tests_cant": "Rounding over all doubles; equality of the ends and positivity must hold for every value, the violation of the interval only shows for some.", "anchors": ["serpent/include/serpent/utils/utilities-inl.hpp: interpolate", "serpent/src/utils/utilities.cpp: interpolate_pressure"]}
{"id": "C111", "title": "Pose errors of an estimated trajectory", "statement": "For every reference and every estimate whose stamps never go back the pose error report exists: one absolute error for each estimated pose whose stamp lies within the reference, one relative error for each two consecutive ones, each formed against the reference pose at that stamp (recorded, or interpolated between the two neighbours around it); no input gives a result that is not a number. An absolute error is the identity exactly when the pose equals the reference, a relative error exactly when the motions since the previous pose are equal; poses taken from the reference give identities only. Moving both trajectories by the same motion changes nothing; moving the estimate or the reference alone leaves all relative errors and stamps unchanged; the length of quaternions does not matter.", "quantifier": "all references and estimates (any number of poses, any stamps), all motions", "why_tests_cant": "Quantifies over trajectories and motions of both; a test compares a handful of recordings, and the scripts have no tests.", "anchors": ["plotting/compute_pose_errors.m: compute_pose_errors", "plotting/interp_transform.m: interp_transform", "plotting/pose_to_matrix.m: pose_to_matrix"]}
{"id": "C112", "title": "Alignment to the first pose, trajectory length, interpolation", "statement": "Recomputing a trajectory from a given first pose moves the whole trajectory by one motion (stamps, relative errors and length unchanged), so that it starts at the given pose; aligned to a reference its first absolute error is the identity. The length is the sum of the distances between consecutive positions, does not change under motions and is at least the distance of any two positions. Interpolation at times in order and within an increasing reference of two or more poses always succeeds and gives the reference pose at each time. With a last stamp that occurs twice it gives no number, and a reference of one pose is refused even at its own stamp (both refuted).", "quantifier": "all trajectories, first poses, references and query times", "why_tests_cant": "All trajectories and times; the failing inputs (repeated last stamp, single pose) are corner cases of recordings.", "anchors": ["plotting/recompute_trajectory.m: recompute_trajectory", "plotting/align_to_first_pose.m: align_to_first_pose", "plotting/compute_trajectory_length.m: compute_trajectory_length", "plotting/interpolate_trajectory.m: interpolate_trajectory", "plotting/matrix_to_pose.m: matrix_to_pose"]}
{"id": "C113", "title": "Vector errors of estimated velocities", "statement": "For every reference and estimate whose stamps never go back: one absolute error (estimate minus interpolated reference) for each entry within the reference and one relative error for each two consecutive ones; no input gives a result that is not a number. The relative error is the previous absolute error minus the present one, so its sign is opposite to that of the absolute error (that it is the change of the absolute error is refuted). A constant offset of the estimate is added to the absolute errors and leaves the relative ones.", "quantifier": "all references, estimates and offsets", "why_tests_cant": "All recordings; a sign convention that differs between two outputs is invisible in plots of norms.", "anchors": ["plotting/compute_vector_errors.m: compute_vector_errors", "plotting/interp_vector.m: interp_vector"]}
{"id": "C114", "title": "Track statistics and retention", "statement": "For every sequence of frames with at least one feature each: the number reported for a feature is the number of consecutive frames up to this one that contain its id; minimum, mean and maximum are those of the frame, at least 1 and at most the number of frames so far; row i of the table counts the features of frame i by that number and adds up to the size of the frame; the longest duration occurs. One frame without features and no statistics are produced (refuted). The retention of a frame is its tracked matches over all matches of the frame before, no number for the first frame and after an empty one; where no more is tracked than there was it lies in [0,1], as does the mean over the numbers.", "quantifier": "all sequences of frames and ids, all counts", "why_tests_cant": "All sequences of frames, including repeated ids and interrupted tracks.", "anchors": ["plotting/compute_frame_track_statistics.m: compute_frame_track_statistics", "plotting/compute_track_retention.m: compute_track_retention", "plotting/extract_statistics.m: extract_statistics"]}
{"id": "C115", "title": "Alignment of a whole trajectory by gradient descent", "statement": "Whenever it returns a trajectory, it is the given one moved by a single motion: first onto the reference at the first stamp, then by a correction whose rotation vector and translation are bounded by iterations times the largest change, so relative errors and length are unchanged. The first step goes against the exact slope of the weighted sum of squared distances. Later steps do not: after a half turn the direction followed is opposite to the slope (refuted). For every increasing trajectory aligned to itself the first iteration leaves a rotation that is no number: with one iteration there is no result, with two it is displaced by the largest change in every coordinate (refuted that a fitting trajectory stays). The final loss printed is that before the last update, -1 for a single iteration.", "quantifier": "all trajectories, references and optimisation parameters", "why_tests_cant": "The exact slope and the displacement of every trajectory that fits already need proof over all inputs; the script has no tests.", "anchors": ["plotting/align_trajectory.m: align_trajectory"]}
{"id": "C116", "title": "Members shared between threads", "statement": "For every interleaving of the callbacks of the serpent node (front end, back end, mapping, registration, filters, stereo, transform service), with any number of threads: a member that belongs to a mutex is only accessed while that mutex is held, except that the point cloud callback reads the integrator settings, the odometry state and the biases without it while deskewing. Two threads are never about to access the same member with one of them writing, except a write of optimised odometry against such a read. No such race exists if no optimised odometry is taken while a cloud is being deskewed. With registration on, the whole pipeline guarantees that: no odometry can arrive during deskewing, as the comment in the code claims. The mutexes alone do not prevent the race, and without registration odometry can arrive during deskewing (both refuted by executions).", "quantifier": "all interleavings of all callbacks, any number of threads, all branches and numbers of loop rounds, before and after a shutdown", "why_tests_cant": "Absence of data races quantifies over all interleavings; a test sees one schedule, and the unprotected reads rely on an argument over the whole pipeline.", "anchors": ["serpent/src/front_end/frontend.cpp: pointcloud_callback, imu_callback, optimised_odometry_callback, barometer_callback, stereo_callback", "serpent/include/serpent/front_end/frontend.hpp: mutexes", "serpent/src/back_end/optimisation.cpp", "serpent/include/serpent/mapping/mapping-inl.hpp", "serpent/include/serpent/front_end/lidar/registration-inl.hpp", "serpent/src/utils/utilities.cpp: protected_sleep"]}
{"id": "C117", "title": "Use of mutexes in the node", "statement": "For every interleaving of the callbacks of the serpent node while it runs: a mutex is given back only by the thread that holds it and never taken twice by the same thread; a callback that has finished or sleeps holds no mutex; and there is no deadlock over mutexes: from every thread the chain of threads it waits for ends in a thread that can go on. After a shutdown a callback can return with its mutex still locked (refuted).", "quantifier": "all interleavings of all callbacks, any number of threads", "why_tests_cant": "Deadlocks and leaked locks depend on the interleaving of several callbacks, most of which no test run produces.", "anchors": ["serpent/src/front_end/frontend.cpp", "serpent/src/back_end/optimisation.cpp", "serpent/include/serpent/mapping/mapping-inl.hpp", "serpent/include/serpent/front_end/lidar/registration-inl.hpp", "serpent/src/utils/utilities.cpp: protected_sleep"]}
{"id": "C118", "title": "Threads the node needs", "statement": "All callbacks of the serpent node share one pool of threads, and a callback that waits for another keeps its thread. With at least four threads (five with a stereo camera), for every interleaving that respects the pool: whenever nothing moves any more, a thread is still free, so that nothing is left undone for want of one; every published cloud then has its optimised odometry. IMU data and barometer data never both wait. With one thread fewer the node can stop for ever: a published cloud with known initial guess is never registered, no further cloud, odometry or registration result appears and no sensor message is taken, whatever happens later. This holds with and without barometer, so the default of four threads is too few with a stereo camera (refuted by executions). With registration against the map turned off, the first local map takes one thread for ever.", "quantifier": "all interleavings, all inputs within the contract of the pipeline, every number of threads, with and without stereo camera and barometer", "why_tests_cant": "Starvation of the thread pool needs four or five callbacks to meet in one schedule; a test run shows it at best by hanging once.", "anchors": ["serpent/src/nodes/node.cpp: main", "serpent/src/utils/utilities.cpp: protected_sleep", "serpent/src/front_end/frontend.cpp: pointcloud_callback", "serpent/src/back_end/optimisation.cpp", "serpent/include/serpent/front_end/lidar/registration-inl.hpp: s2s_callback, s2m_callback"]}
{"id": "C119", "title": "The node does not starve on its threads", "statement": "With at least four threads in the pool (five with a stereo camera), along every infinite execution in which a callback that has begun is scheduled again and again and a message is not passed over for ever while a thread is free: again and again a thread is free; every published cloud gets its odometry back and its transform; every cloud but the first is registered and its registration published; and, when IMU data (and images) keep coming, the point cloud callback returns. No fairness is asked for callbacks that find no free thread.", "quantifier": "all infinite fair executions, all inputs within the contract of the pipeline, every number of threads from four (five) on, with and without stereo camera, barometer and registration against the map", "why_tests_cant": "No finite run shows that something happens eventually in every schedule, and the pool is full only in rare ones.", "anchors": ["serpent/src/nodes/node.cpp: main", "serpent/src/utils/utilities.cpp: protected_sleep", "serpent/src/front_end/frontend.cpp: pointcloud_callback", "serpent/src/back_end/optimisation.cpp", "serpent/include/serpent/front_end/lidar/registration-inl.hpp: s2s_callback, s2m_callback"]}
{"id": "C120", "title": "Report on the poses of estimates", "statement": "The report on estimated trajectories against a reference exists exactly when the reference has a message within the time bounds and every estimate has one at a time this part covers (without the fitting alignment); asking for both alignments is refused. For every estimate the stamps are those of its covered messages; each absolute position error is the distance, each rotation error the angle in [0, pi], between the estimated pose, put by one rigid motion (none without alignment; for alignment to the first pose the one that makes the first pose right), and the reference at that time; each relative error compares the step seen from the earlier pose with that of the reference; the RMSEs are the roots of the means of the squares, between the least and the greatest error and zero exactly when all errors are; the length is that of the covered estimate. Alignment changes neither relative errors nor length; with alignment the report does not depend on the frame of an estimate; without, it does not change when reference and estimates are moved together; recorded reference poses have RMSE zero.", "quantifier": "all bags of odometry messages in order of time with orientations, all time bounds, numbers of estimates, alignment parameters", "why_tests_cant": "Sample runs cannot show that no frame, alignment or time window changes a figure it should not.", "anchors": ["plotting/compute_pose_data.m", "plotting/split_poses.m", "plotting/extract_timestamps.m", "plotting/extract_poses.m", "plotting/extract_positions.m", "plotting/extract_quaternions.m"]}
{"id": "C121", "title": "Report on the velocities of estimates", "statement": "The report on the velocities of estimates exists whenever the reference has a message within the time bounds. For every estimate the stamps are those of its messages at times this part of the reference covers; each absolute error is the estimated minus the interpolated reference velocity, its norm the distance of the two; each relative error has the size of the difference between the change of the estimate and the change of the reference; this for linear and angular velocity against the same messages; the RMSEs are the roots of the means of the squares and no number exactly when there is nothing to average.", "quantifier": "all bags of odometry messages in order of time, all time bounds, numbers of estimates", "why_tests_cant": "The window, the coverage and the interpolation combine differently for every pair of bags.", "anchors": ["plotting/compute_twist_data.m", "plotting/extract_twists.m", "plotting/extract_linear_velocities.m", "plotting/extract_angular_velocities.m"]}
{"id": "C122", "title": "Clouds from and to files", "statement": "A call to load a cloud is answered exactly when its file can be read; it then publishes exactly one message, on the requested topic, with the requested frame, the cloud of the file, and the present time to the microsecond, and names the number of points modulo 2^32 (which is the number of points exactly below 2^32); otherwise nothing is published; no file changes. The messages published correspond one to one, in order, to the answered calls. Who subscribes later receives the last message on the topic if the first request for it, answered or not, asked for a latched message, and nothing otherwise. A call to save is answered exactly when a message is heard (from others or latched by this node) and can be written; the file then holds the cloud of that message, and no other file changes. A cloud loaded to a latching topic on which nobody else publishes, and saved from it, is the same cloud.", "quantifier": "all histories of calls, files changed by others, messages of others, readers and writers", "why_tests_cant": "Which message a late subscriber receives depends on the whole history of calls.", "anchors": ["pointcloud_tools/src/pointcloud_file_converter.cpp", "pointcloud_tools/src/pointcloud_file_converter_open3d.cpp", "pointcloud_tools/srv/file_to_message.srv", "pointcloud_tools/srv/message_to_file.srv"]}
{"id": "C123", "title": "Closed forms of the derivation script", "statement": "In the script that derives the registration models, the closed forms found by hand are the derivatives they stand for: each of the three forms for point-to-point is the mixed second derivative, in motion and measured points, of the squared distance with the rotation to first order; each of the two forms for point-to-plane likewise, and each of the two forms of the second derivative in the motion. The three forms of the rotation matrix turn every point by the angle |r| about r, and are no numbers exactly at r = 0. Homogeneous coordinates give the same residuals. Twice the product of a residual with its derivative is the gradient of its square. Every entry of a matrix is written to the file exactly once under its own indices.", "quantifier": "all rotation vectors, translations, points and normals", "why_tests_cant": "Numbers put into a formula compare it at a few points only.", "anchors": ["degeneracy_analysis/degeneracy_analysis.m"]}
{"id": "C124", "title": "Shipped platforms start whatever was on the parameter server", "statement": "Launching a platform that is shipped with the system, with any of its missions, sets exactly the parameters of its files, the last setting of a key counting, and leaves every other parameter as it was. The node then starts, with any number of threads from one on, whatever the other parameters on the server are and however often the platform was launched before, as shipped or with registration, stereo and barometer factors switched in any way, provided that with stereo factors the two settings of the tracker that no file sets are not set by hand. The threads of the launch files suffice for the node never to be short of one. Lidar and imu are placed as the files say, and the frame named as the left camera is the left camera. Launching again after any other missions of the platform gives the same parameters as launching on an empty server.", "quantifier": "all platforms, missions, contents of the parameter server, histories of launches, choices of factors", "why_tests_cant": "The start depends on parameters left by other launches; trying a platform tries one content of the server.", "anchors": ["serpent/launch/load_parameters.launch", "serpent/launch/serpent.launch", "snowboard/config/serpent", "ue4_missions/config/serpent", "simulator_prcp_missions/config/serpent", "serpent/src/nodes/node.cpp"]}
{"id": "C125", "title": "Consistency plots of registration covariances show the errors against their covariances", "statement": "The motions between consecutive poses of a trajectory, one fewer than there are poses, lead from each pose to the next, and are the same when the whole trajectory is moved. The errors of registration are the differences between the positions of these motions and of those of the reference at the same times; they do not change when the estimate is moved and are zero for a trajectory against itself. The ellipsoid drawn for a mean, a covariance without flat directions and a number of deviations consists of exactly the points at that many deviations from the mean. The consistency plot gives one point for each covariance when there are at least three and as many as motions, and fails when the numbers differ. A point is right for every error exactly when the covariance is diagonal with its values in the order the decomposition gives; otherwise an error inside two deviations can be shown outside. A covariance with a flat direction gives no point. The fraction printed is one or zero according to the last point only. The tables of Jacobians keep, for messages of one length, every entry with its size and square; the entries and deviations of a symmetric covariance message are read from their places.", "quantifier": "all trajectories, references, covariances, decompositions that meet their contract, messages", "why_tests_cant": "The plots look plausible for the recorded runs; that an ellipsoid is the right level set and that a point is right for all covariances is a statement over all matrices.", "anchors": ["plotting/compute_relative_poses.m", "plotting/plot_normalised_covariance_scatter.m", "plotting/plot_gaussian_ellipsoid/plot_gaussian_ellipsoid.m:show3d", "plotting/compute_jacobians_data.m", "plotting/extract_pose_with_covariance_stamped.m"]}
{"id": "C126", "title": "The launch files connect the sensors to the programs that need them", "statement": "For every set of topic names outside the names the system keeps for itself, the program started by the launch file is the program of its configuration with each of the seven inputs under the name given for it, left for left and right for right, and every other name unchanged: every subscription has exactly one source of the expected type, either a given sensor or one module, every given sensor in use is read, and the outputs keep their names. Front end and back end started by their own launch files start exactly when the single program does and hold the same modules. The tracker alone reads the four given camera topics. On the snowboard, with the recording's topics, every subscription of the splitters, of the undistortion and of the system has its source, for each of the four stereo cameras; a long picture of at least 5120 by 800 is sent as four pictures of 1280 by 800, each with its own topic, info topic and frame, which in the upright picture stand side by side with the left eye before the right one, with the centre at 640, 400; a smaller one is refused. On ue4 both infos come from the picture they belong to, and the baseline read off them is the distance between the two camera frames of the platform. Only the calibrated camera of the snowboard can be launched.", "quantifier": "all topic names, configurations, parameters, pictures; all four cameras of the snowboard", "why_tests_cant": "Starting one platform shows one set of names; a swapped left and right pair or a name missed by one of the launch files shows up only as bad estimates or silence.", "anchors": ["serpent/launch/serpent.launch", "serpent/launch/serpent_frontend.launch", "serpent/launch/serpent_backend.launch", "serpent/launch/serpent_stereo_pipeline.launch", "snowboard/launch/serpent.launch", "snowboard/launch/split_image.launch", "snowboard/launch/undistort_stereo.launch", "snowboard/config/camera_tools/split_kit0.yaml", "snowboard/config/camera_tools/split_kit1.yaml", "ue4_missions/launch/serpent.launch", "ue4_missions/launch/publish_camera_info.launch", "simulator_prcp_missions/launch/serpent.launch", "camera_tools/src/split_image.cpp:ImageSplitter", "camera_tools/src/publish_info.cpp:PublishInfo"]}
{"id": "C127", "title": "The figures and the summary of an evaluation show the reported values under the right names", "statement": "For every reference, list of estimates, list of names and set of options, the figures and the summary are made exactly when the report on the poses exists, there is one name for each estimate and no more estimates than colours. Then there are seven windows. In the windows of positions, orientations, linear and angular velocities each cell of four rows and three columns shows one coordinate or the length, of the values, of the absolute errors or of the relative errors, with a label that says which and in which unit, one curve for each estimate in its own colour over its own times, and the reference in the column of values only; the legend gives the curves their names in the order drawn, the reference first. Angles are drawn in degrees when degrees are asked for. The windows of the trajectories draw the paths of the same estimates and reference. Times counted from zero are the times less the first time of the reference, the same for poses and velocities. The text holds the length of the reference and for each estimate its name, length and errors as reported, and the file holds the same text. Each window is saved once in each file type under its own name, only when saving is asked for, and closing leaves none open.", "quantifier": "all references, estimates, names, options, reports", "why_tests_cant": "A swapped column, a legend one off or a unit not converted leaves a figure that looks right; tests do not look at figures.", "anchors": ["plotting/plot_and_save.m:plot_and_save", "plotting/plot_pose.m:plot_pose", "plotting/plot_twist.m:plot_twist", "plotting/plot_trajectory.m:plot_trajectory", "plotting/default_plot_opts.m:default_plot_opts", "plotting/plot_pointcloud_statistics.m:plot_pointcloud_statistics"]}
{"id": "C128", "title": "The figures of the Jacobians show the recorded components, their sizes and their squares", "statement": "For all lists of messages with components of one dimension, the three windows are made exactly when there are enough colours and a label for every component in each window. Each window has one cell for every component and no other; the cell shows, over the numbers of the messages, the component of each list of messages in the colour of the list, its absolute value in the second window, its square in the third, under the label given for that window and component. Each window is saved once in each file type under its own name and only when saving is asked for.", "quantifier": "all lists of messages of any dimension, labels, colours, names, file types", "why_tests_cant": "A cell that shows another component, or the square where the absolute value is meant, looks plausible; only a proof over all dimensions covers odd and even grids.", "anchors": ["plotting/plot_jacobian.m:plot_jacobian", "plotting/plot_and_save_jacobians.m:plot_and_save_jacobians", "plotting/compute_jacobians_data.m:compute_jacobians_data"]}
{"id": "C129", "title": "The figures and the summary of the tracker show the numbers of its messages", "statement": "For all lists of statistics messages the figures and the summary are made exactly when every list has messages, every message has match ids, and there are enough colours and not more names than lists. Each of the twelve cells of counts shows, over times or frame numbers as asked for, its own field of every message, left and right apart, in the colour of the list and with the names in the legend; the retention cell shows for each message the share of the matches of the message before that are still tracked. The last window shows for every message the number of matches of each length, and their mean, least and greatest length, named in that order for each list. The text gives for each name the mean of the shares that are numbers and the longest track, the file holds the same text, and each window is saved once in each file type under its own name.", "quantifier": "all lists of statistics messages, names, colours, options", "why_tests_cant": "Counts of left and right or of extracted and filtered features are close to each other, so a swapped cell is not noticed in a figure.", "anchors": ["plotting/plot_statistics.m:plot_statistics", "plotting/stereo_statistics_plot_and_save.m:stereo_statistics_plot_and_save", "plotting/extract_statistics.m:extract_statistics", "serpent/msg/StereoTrackerStatistics.msg"]}
{"id": "C130", "title": "The graph beside the IMU integrator has a state for every ten measurements", "statement": "Given messages whose stamps are not zero and are accepted, the test node publishes exactly what the node without the graph publishes. The optimiser gets nothing before the tenth measurement; after that it holds, for every ten measurements received, one state with pose, velocity and bias, each exactly once, the first with its three priors, and each later one tied to the one before by exactly the ten measurements between them, which stand for the time between the two states. The first guess of each state is predicted from the guess before it. A first message with stamp zero should not matter, as it does not for the node without the graph (refuted: the next message ends the node).", "quantifier": "all message sequences of up to 2^31-1 measurements, all integrators, an optimiser that solves every system", "why_tests_cant": "The batches depend on counters, resets and two integrators over sequences of any length.", "anchors": ["navigation_tools/src/integrate_imu_graph_test.cpp:IntegrateImu, integrate", "navigation_tools/include/navigation_tools/integrate_imu_graph_test.hpp"]}
{"id": "C131", "title": "The figures of summary statistics show the numbers of the messages", "statement": "For all lists of messages the figures are made exactly when there is a first message and, if it has statistics, there is a colour for every list, no message has fewer statistics than the first, and, when times count from zero, no list is empty. There is one window for each statistic of the first message, under its label, with five cells for least value, mean, count, greatest value and variance; each cell shows for every list, in its colour and over its times, that number of the statistic at the same position of every message. Statistics with the label of the window should be shown whatever their position (refuted), and the lists should be named in a legend (refuted).", "quantifier": "all lists of messages with any number of statistics, all colours, both ways of counting time", "why_tests_cant": "Five numbers of the same variable look alike in a figure, and messages in tests list their statistics in one order.", "anchors": ["plotting/plot_summary_statistics.m:plot_summary_statistics", "plotting/main.m", "statistics_msgs/msg/SummaryStatisticsArray.msg"]}
{"id": "C132", "title": "The data of an evaluation are those of the files and topics named", "statement": "For all bags and all rows of directories, file names and topics, reading succeeds exactly when directories and names can be paired, every file is there, has a topic of the same position and holds messages of that topic and of the type asked for. Then the list at each position holds these messages of the file at that position, all of them, in the order recorded, and the names of the estimates are handed on unchanged. When every file has poses of the registration, one figure for each is saved under the name of its estimate. A file whose topic is left empty should only lose its own figure (refuted: all are lost), the number of names should agree with the number of files read (refuted), one topic should serve for several files as one directory does (refuted), and directories in a row should go with file names in a column (refuted).", "quantifier": "all bags, directories, file names, topics, types of messages, ways of drawing", "why_tests_cant": "A test reads the few bags at hand; which list belongs to which name, and what the absence of a topic in one bag does to the others, is a matter of all configurations.", "anchors": ["plotting/raw_data_from_rosbags.m:raw_data_from_rosbags", "plotting/odom_data_from_rosbags.m:odom_data_from_rosbags", "plotting/jacobian_data_from_rosbags.m:jacobian_data_from_rosbags", "plotting/stereo_statistics_from_rosbags.m:stereo_statistics_from_rosbags", "plotting/main.m"]}
{"id": "C133", "title": "The figure of the registration covariances shows the standard deviations of the six directions", "statement": "For all lists of poses with covariance the window is made exactly when every covariance has 36 numbers and, for times from zero, there is a message; it is added to the windows there are and leaves them unchanged. It has six curves, named x, y, z and the three rotations in this order; each passes, for every message in order, through the time of the message and the root of the variance of that direction, and through zero, which is not shown, where the variance is negative. When every file of an evaluation holds poses on its topic, the window saved under the name of each estimate shows the covariances of the file at the same position. Different files should be saved under different names (refuted for estimates of one name).", "quantifier": "all lists of messages, covariances, windows, bags, names, both ways of counting time", "why_tests_cant": "Six curves of similar size look alike; a test that the figure is made does not tell which direction a curve shows or which file it comes from.", "anchors": ["plotting/plot_pose_with_cov.m:plot_pose_with_cov", "plotting/extract_pose_with_covariance_stamped.m:extract_pose_with_covariance_stamped", "plotting/main.m"]}
{"id": "C134", "title": "The cloud analyser reports the statistics of every cloud it receives", "statement": "For every cloud the node publishes a report exactly when the cloud has no fields, or has points and only fields of known types. The report carries sequence number and frame of the cloud, its stamp in whole microseconds, and one statistic for each field in order, with its name and the number of points; the extremes are those of the values that are numbers, mean and variance those of the values when all are numbers, and not-a-number otherwise. All normals are called normalised exactly when none that is made of numbers differs from length one by more than 1e-6. Every cloud of a sequence is served up to the first that cannot be analysed; after it no cloud is. A cloud without points should not end the node (refuted), a value that is no number should not spoil the mean of the others (refuted), the least value should not exceed the greatest (refuted for a field without numbers), normals that are no numbers should not be called normalised (refuted), and the report should be stamped as the cloud (refuted).", "quantifier": "all clouds, fields, values including not-a-number, sequences of clouds", "why_tests_cant": "Clouds in tests have points and finite values; what a missing return or an empty scan does to the node and to later reports is not seen.", "anchors": ["pointcloud_tools/src/pointcloud_analyser.cpp:PointcloudAnalyser::analyse", "pointcloud_tools/src/pointcloud_analyser_main.cpp:main", "pointcloud_tools/src/pclpointcloud2_utilities.cpp:statistics", "pointcloud_tools/src/pclpointcloud2_utilities.cpp:check_normals", "pointcloud_tools/include/pointcloud_tools/impl/pclpointcloud2_utilities.hpp:min"]}
