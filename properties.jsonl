{"id": "C01", "title": "Constant time shift on input", "statement": "Every message that DataLoader buffers carries exactly (input timestamp) - (-1) in IEEE double arithmetic, whatever was pushed, popped or cleared before: the time origin is never calibrated to the first message, so every published time is the sensor time plus one second (rounded).", "quantifier": "all DataLoader histories (push IMU / push features / pop / clear, any order) and all double timestamps", "why_tests_cant": "the branch that would calibrate the offset is guarded by a state reachable or not only by considering every history", "anchors": ["eskf_vio_backend/src/data_manager/data_loader.cpp: DataLoader::Clear, PushFeaturesMessage, PushIMUMessage", "eskf_vio_backend/include/data_manager/data_loader.hpp: DataLoader::DataLoader"]}
{"id": "C02", "title": "Exact acceptance rule for pushed messages", "statement": "A pushed message is appended to its buffer if and only if its shifted timestamp is strictly greater (IEEE) than the shifted timestamp of the message pushed immediately before it on the same stream (accepted or not), the first push in the process being compared with its own time minus one; a features message with ids and observes of different lengths is refused (returns false) and changes nothing.", "quantifier": "all push sequences, all timestamps including NaN and infinities", "why_tests_cant": "the rule depends on the whole prior history of pushes", "anchors": ["eskf_vio_backend/src/data_manager/data_loader.cpp: PushFeaturesMessage, PushIMUMessage"]}
{"id": "C03", "title": "Buffered stream is strictly increasing in time", "statement": "At every moment the timestamps buffered in each of the two input queues are strictly increasing. (The code only guarantees this when the pushed stream itself is strictly increasing; a single late message lets the next ones in out of order.)", "quantifier": "all DataLoader histories", "why_tests_cant": "violated only by particular histories; order must hold for all of them", "anchors": ["eskf_vio_backend/src/data_manager/data_loader.cpp: PushFeaturesMessage, PushIMUMessage"]}
{"id": "C04", "title": "FIFO conservation per stream", "statement": "For any interleaving of pushes and PopOneMessage calls, the messages delivered so far on each stream, followed by the messages still buffered, are exactly the accepted messages in acceptance order: nothing is lost, duplicated or reordered within a stream.", "quantifier": "all interleavings of push and PopOneMessage", "why_tests_cant": "an invariant over unbounded histories", "anchors": ["eskf_vio_backend/src/data_manager/data_loader.cpp: PopOneMessage"]}
{"id": "C05", "title": "PopOneMessage releases in time order and bundles by the IMU period", "statement": "PopOneMessage returns false exactly when both buffers are empty. With both non-empty it releases the head of the features buffer if that is not later than the head IMU sample, together with this IMU sample exactly when they are closer than the IMU period, and otherwise only the head IMU sample; with one buffer empty it releases the head of the other one. Hence, for sorted buffers, no released features message is later than any message left behind and no IMU sample released alone is later than any message left behind.", "quantifier": "all buffer contents", "why_tests_cant": "depends on every pair of queue heads and on rounding of the time difference", "anchors": ["eskf_vio_backend/src/data_manager/data_loader.cpp: PopOneMessage"]}
{"id": "C06", "title": "PopOneMessage never delivers a message after a later one", "statement": "With sorted buffers, the sequence of delivered messages never goes back in time across the two streams as long as both buffers stay non-empty. (Bundling releases an IMU sample up to one period later than the features message, so a second features message inside this period comes out late.)", "quantifier": "all buffer contents and pop sequences", "why_tests_cant": "needs all combinations of feature and IMU rates", "anchors": ["eskf_vio_backend/src/data_manager/data_loader.cpp: PopOneMessage"]}
{"id": "C07", "title": "PopOneMessage reads only live storage", "statement": "PopOneMessage never reads a queue element after popping it. (It does: the features head is bound by reference, popped, and then read again.)", "quantifier": "all buffer contents", "why_tests_cant": "undefined behaviour that usually looks benign at run time", "anchors": ["eskf_vio_backend/src/data_manager/data_loader.cpp: PopOneMessage lines 61-67"]}
{"id": "C08", "title": "The loader always drains", "statement": "From any state, calling PopOneMessage repeatedly succeeds until both buffers are empty, after at most (number of buffered features + number of buffered IMU samples) calls, and the delivered messages are all the buffered ones.", "quantifier": "all loader states", "why_tests_cant": "termination for all sizes", "anchors": ["eskf_vio_backend/src/data_manager/data_loader.cpp: PopOneMessage"]}
{"id": "C09", "title": "PopPackedMessage is memory safe", "statement": "PopPackedMessage never reads the head or tail of an empty buffer and never returns an empty IMU pack, for any buffer contents and any timestamps, provided the output pointer is not null.", "quantifier": "all loader states, including unsorted buffers and NaN", "why_tests_cant": "the unguarded while loop is safe only because of an earlier check; must hold for all contents", "anchors": ["eskf_vio_backend/src/data_manager/data_loader.cpp: PopPackedMessage"]}
{"id": "C10", "title": "PopPackedMessage delivers exactly the IMU samples up to the image", "statement": "On success the pack contains the head features message, all leading IMU samples not later than it, and, when the last of them is more than 1e-6 s early, one extra sample stamped exactly with the features time; what remains buffered is the same boundary sample followed by the untouched later samples, so consecutive packs share their boundary sample and lose nothing. On failure the IMU buffer is unchanged and at most one features message (the one no IMU sample precedes) is dropped.", "quantifier": "all loader states with sorted buffers", "why_tests_cant": "holds for all numbers of samples and timestamps", "anchors": ["eskf_vio_backend/src/data_manager/data_loader.cpp: PopPackedMessage"]}
{"id": "C11", "title": "The interpolated boundary sample lies between its neighbours", "statement": "The sample PopPackedMessage synthesises is a convex combination of the last sample before and the first sample after the image: in exact arithmetic each gyro and accel component lies between the two neighbours' components.", "quantifier": "all neighbouring samples and image times between them", "why_tests_cant": "real-valued bound over all inputs", "anchors": ["eskf_vio_backend/src/data_manager/data_loader.cpp: PopPackedMessage lines 117-129"]}
{"id": "C12", "title": "Loaders are independent of each other and Clear forgets the past", "statement": "What one DataLoader accepts depends only on what was pushed to it since its last Clear. (False: the acceptance filter is a function-local static shared by every DataLoader of the process and survives Clear and Backend::Reset.)", "quantifier": "all pairs of loaders and histories", "why_tests_cant": "cross-instance interference needs two-instance histories", "anchors": ["eskf_vio_backend/src/data_manager/data_loader.cpp: static lastTimeStamp"]}
{"id": "C13", "title": "Frame ids in the window are always consecutive", "statement": "After any sequence of AddNewFrame and RemoveFrame calls the ids of the frames in the window are consecutive integers (while fewer than 2^32-1 ids were handed out), and AddNewFrame therefore always reports true.", "quantifier": "all operation sequences on the frame manager", "why_tests_cant": "an inductive invariant over unbounded sequences", "anchors": ["eskf_vio_backend/src/data_manager/vision_data/frame_manager.cpp: AddNewFrame, RemoveFrame"]}
{"id": "C14", "title": "GetFrame finds exactly the frame with the given id", "statement": "For a window with consecutive ids, GetFrame(id) returns the frame whose id is id when there is one and null otherwise; GetMaxFrameID returns the id of the newest frame, or 0 for an empty window.", "quantifier": "all windows and ids", "why_tests_cant": "all window contents", "anchors": ["eskf_vio_backend/src/data_manager/vision_data/frame_manager.cpp: GetFrame, GetMaxFrameID"]}
{"id": "C15", "title": "RemoveFrame removes one frame and nothing else", "statement": "RemoveFrame(k) fails and changes nothing when k is out of range; otherwise it removes exactly the k-th frame, keeps order, poses, times and feature links of all others, renumbers frames after k down by one when k>0, and renumbers nothing when k=0.", "quantifier": "all windows and indices", "why_tests_cant": "all sizes and positions", "anchors": ["eskf_vio_backend/src/data_manager/vision_data/frame_manager.cpp: RemoveFrame"]}
{"id": "C16", "title": "A new frame inherits the newest pose", "statement": "AddNewFrame appends the frame at the end; with an empty window it gets id 1, identity pose, zero velocity and no features, otherwise id newest+1 and the newest frame's pose and velocity; existing frames are untouched.", "quantifier": "all windows", "why_tests_cant": "all windows", "anchors": ["eskf_vio_backend/src/data_manager/vision_data/frame_manager.cpp: AddNewFrame, Frame::Initialize"]}
{"id": "C17", "title": "Observation count is exact", "statement": "After any sequence of AddNewFeatures, RemoveByFrameID and RemoveByID, each managed feature's observeNum equals the total number of per-camera observations it stores, and no managed feature has an empty observation list.", "quantifier": "all operation sequences on the feature manager", "why_tests_cant": "counter consistency over unbounded histories (it sizes the measurement matrix)", "anchors": ["eskf_vio_backend/src/data_manager/vision_data/feature_manager.cpp: AddNewFeatures, AddNewObserve, RemoveByFrameID"]}
{"id": "C18", "title": "Removing a frame removes exactly its observations", "statement": "RemoveByFrameID(f, false) for the oldest frame, and RemoveByFrameID(f, true) for any frame, change what GetNorm(frame, camera) answers only by forgetting frame f (and, with renumbering, by shifting later frames down by one); a feature disappears exactly when its only observation was in f; positions and statuses of survivors are unchanged.", "quantifier": "all feature managers with non-empty tracks, all frame ids, all cameras", "why_tests_cant": "all track lengths and positions", "anchors": ["eskf_vio_backend/src/data_manager/vision_data/feature_manager.cpp: RemoveByFrameID, Feature::GetNorm"]}
{"id": "C19", "title": "Feature lookup outside the track is refused", "statement": "GetNorm answers true exactly when the frame lies inside the track and the camera has an observation there, and then returns that observation; frame ids before the first frame (32-bit wrap-around) are refused.", "quantifier": "all features, frames and cameras", "why_tests_cant": "wrap-around corner over all 32-bit values", "anchors": ["eskf_vio_backend/src/data_manager/vision_data/feature_manager.cpp: Feature::GetNorm, FinalFrameID"]}
{"id": "C20", "title": "The window stores exactly what the front end reported", "statement": "For every frame in the window, feature id and camera, the backend's lookup returns exactly the coordinates which the features message of that frame reported (and nothing if it reported none), after any history of messages and marginalizations in which no feature is lost and re-reported under the same id. (Without this condition it is false: the re-reported observation is filed under an earlier frame.)", "quantifier": "all histories of features messages and marginalizations", "why_tests_cant": "a refinement over unbounded histories; a gap in a track silently shifts observations to the wrong frame", "anchors": ["eskf_vio_backend/src/backend/backend.cpp: UpdateFeatureFrameManager, MarginalizeFeatureFrameManager", "eskf_vio_backend/src/data_manager/vision_data/feature_manager.cpp"]}
{"id": "C21", "title": "Frames and feature manager agree", "statement": "For well-formed contiguous tracks, after any history a frame in the window links a feature if and only if the feature manager holds this feature with a track covering the frame, and both refer to the same feature object.", "quantifier": "all histories of features messages and marginalizations", "why_tests_cant": "invariant over shared mutable state", "anchors": ["eskf_vio_backend/src/backend/backend.cpp: UpdateFeatureFrameManager, MarginalizeFeatureFrameManager"]}
{"id": "C22", "title": "Keyframe decision rule", "statement": "For a frame with a predecessor in the window, IsKeyFrame answers true exactly when fewer than the minimum number of features are seen by camera 0 in both frames or the two positions are farther apart than the maximum translation; the oldest frame is always a keyframe, null never is; a frame outside the window is undefined behaviour. The mean-parallax threshold has no influence.", "quantifier": "all windows, frames, thresholds", "why_tests_cant": "decision over all inputs; independence from a parameter is a for-all statement", "anchors": ["eskf_vio_backend/src/data_manager/vision_data/frame_manager.cpp: IsKeyFrame"]}
{"id": "C23", "title": "GetAttitude is safe and returns the nearest sample", "statement": "GetAttitude never steps outside its queue for any contents; on success the returned attitude belongs to a stored item whose (rounded) time distance to the request is below the threshold, and in a time-sorted queue no other item is closer.", "quantifier": "all queues, including unsorted or NaN times, all requests", "why_tests_cant": "reverse-iterator arithmetic over all queue shapes", "anchors": ["eskf_vio_backend/src/propagate/attitude_estimate.cpp: AttitudeEstimate::GetAttitude"]}
{"id": "C24", "title": "GetAttitude finds a near sample whenever there is one", "statement": "If a time-sorted queue holds an item closer to the requested time than the threshold, GetAttitude succeeds. (False for a queue holding a single item later than the request.)", "quantifier": "all time-sorted queues", "why_tests_cant": "corner case over all queue sizes", "anchors": ["eskf_vio_backend/src/propagate/attitude_estimate.cpp: AttitudeEstimate::GetAttitude"]}
{"id": "C25", "title": "CleanOldItems drops exactly the old prefix and stays inside the queue", "statement": "CleanOldItems removes exactly the leading items older than the threshold and never pops the queue past its end. (It does pop past the end when every item is old: undefined behaviour.)", "quantifier": "all queues, times, thresholds", "why_tests_cant": "all queue contents", "anchors": ["eskf_vio_backend/src/propagate/attitude_estimate.cpp: AttitudeEstimate::CleanOldItems"]}
{"id": "C26", "title": "The attitude queue stays ordered", "statement": "AttitudeEstimate::Propagate refuses (returns false, changes nothing) a sample older than its newest item, and its first sample unless the bias-corrected acceleration norm is within 0.04 of gravity; otherwise it appends exactly one item holding the bias-corrected sample, so the queue's times never decrease (for non-NaN times).", "quantifier": "all sample sequences", "why_tests_cant": "invariant over unbounded sequences", "anchors": ["eskf_vio_backend/src/propagate/attitude_estimate.cpp: AttitudeEstimate::Propagate"]}
{"id": "C27", "title": "ResetOrigin keeps exactly the items from the update time on", "statement": "ResetOrigin removes exactly the leading items older than the threshold; it fails exactly when none is left, leaving an empty queue; afterwards the head item is not older than the threshold.", "quantifier": "all queues, times, thresholds", "why_tests_cant": "all queue contents", "anchors": ["eskf_vio_backend/src/propagate/sequence_propagator.cpp: PropagateQueue::ResetOrigin"]}
{"id": "C28", "title": "The vision update is applied at the state nearest to the image time", "statement": "After ResetOrigin succeeds the head item is the stored state nearest in time to the image and within the threshold of it. (False: the first item not older than the threshold is taken even when the next one coincides with the image, and a head arbitrarily later than the image is accepted.)", "quantifier": "all time-sorted queues", "why_tests_cant": "needs all relative timings", "anchors": ["eskf_vio_backend/src/propagate/sequence_propagator.cpp: PropagateQueue::ResetOrigin"]}
{"id": "C29", "title": "Repropagate equals replaying the stored measurements", "statement": "Repropagate keeps the number, times and measurements of the queue items and leaves exactly the states and covariances obtained by feeding the stored measurements again through Propagate from the head state with the current biases.", "quantifier": "all queues and bias values", "why_tests_cant": "equality of whole trajectories of any length", "anchors": ["eskf_vio_backend/src/propagate/sequence_propagator.cpp: Repropagate, Propagate, PropagateMotionNominalState, PropagateFullErrorStateCovariance"]}
{"id": "C30", "title": "Sliding window stays bounded", "statement": "After every RunOnce the window holds at most max(1, configured size) frames while the backend is initialized and at most one frame right after a failed initialization or update; once a features message was processed the window is never empty, and every vision update runs with at least two frames.", "quantifier": "all histories of messages, RunOnce and Reset calls, all numerical outcomes", "why_tests_cant": "invariant over unbounded histories and arbitrary solver results", "anchors": ["eskf_vio_backend/src/backend/backend.cpp: RunOnce, MarginalizeFeatureFrameManager", "eskf_vio_backend/src/update/multi_view_vision_update.cpp: DecideMargPolicy"]}
{"id": "C31", "title": "RunOnce never triggers undefined behaviour on well-formed tracks", "statement": "If features messages have unique ids, known camera ids, non-empty observations and contiguous tracks, no RunOnce call of any history reads out of bounds, dereferences null or pops an empty queue (apart from the dangling read of PopOneMessage), whatever the IMU data, timestamps and solver results.", "quantifier": "all histories satisfying the front-end contract, all IMU data, all solver results", "why_tests_cant": "memory safety over unbounded histories", "anchors": ["eskf_vio_backend/src/backend/backend.cpp: RunOnce", "eskf_vio_backend/src/backend/backend_initialize.cpp", "eskf_vio_backend/src/update/multi_view_vision_update.cpp"]}
{"id": "C32", "title": "Malformed tracks are tolerated", "statement": "A features message with a duplicated id, an id re-appearing after a gap, or an unknown camera id does not crash the backend. (False.)", "quantifier": "all features messages", "why_tests_cant": "crash only for specific message histories", "anchors": ["eskf_vio_backend/src/update/multi_view_vision_update.cpp: TrianglizeMultiFrame", "eskf_vio_backend/src/backend/backend_initialize.cpp: TrianglizeMultiView"]}
{"id": "C33", "title": "Covariance dimensions always match the window", "statement": "While the backend is initialized, after every RunOnce every queued state's IMU-camera covariance has 6*(cameras + frames) columns and the camera covariance is square of that size, so the dimension check of the vision update never fails in normal operation.", "quantifier": "all histories without Reset and without failed update", "why_tests_cant": "dimension invariant over unbounded histories", "anchors": ["eskf_vio_backend/src/update/multi_view_vision_update.cpp: ConstructCovariance, ExpandCameraCovariance, ReduceCameraCovariance, UpdateCovariance"]}
{"id": "C34", "title": "The backend recovers after Reset or a failed update", "statement": "After Reset (or after a failed update) the backend can initialize and run updates again. (False in general: the propagation queue is not emptied, keeps its old covariance dimension, and every later update fails its dimension check for as long as the queue does not run empty.)", "quantifier": "all continuations of the history after Reset", "why_tests_cant": "a liveness failure over all futures", "anchors": ["eskf_vio_backend/src/backend/backend.cpp: Reset, RunOnce", "eskf_vio_backend/src/backend/backend_initialize.cpp: InitializePropagator", "eskf_vio_backend/src/propagate/sequence_propagator.cpp: Propagate"]}
{"id": "C35", "title": "Initialization starts propagation from the initial state", "statement": "After a successful initialization the oldest propagated state is the initial state computed by the initialization. (True when the propagation queue was empty; false otherwise: the new samples are appended to the stale queue and the initial state is ignored.)", "quantifier": "all states at initialization", "why_tests_cant": "depends on history", "anchors": ["eskf_vio_backend/src/backend/backend_initialize.cpp: InitializePropagator"]}
{"id": "C36", "title": "RunOnce reports failures", "statement": "RunOnce returns false when initialization or the vision update failed. (False: for any message with features RunOnce returns true; it returns false only when there is no message, or an IMU-only message was refused.)", "quantifier": "all states", "why_tests_cant": "all branches", "anchors": ["eskf_vio_backend/src/backend/backend.cpp: RunOnce"]}
{"id": "C37", "title": "Published states", "statement": "PublishPropagateState and PublishUpdateState fail exactly when nothing was propagated yet, and otherwise report the newest respectively the oldest queued state with the current biases; they change nothing.", "quantifier": "all states", "why_tests_cant": "all states", "anchors": ["eskf_vio_backend/src/backend/backend.cpp: PublishPropagateState, PublishUpdateState"]}
{"id": "C38", "title": "Published propagation time never goes back", "statement": "If IMU samples are pushed with strictly increasing timestamps, the time reported by successive successful PublishPropagateState calls never decreases, through any sequence of initializations, updates, failures and resets.", "quantifier": "all histories with increasing IMU time", "why_tests_cant": "monotonicity over unbounded histories", "anchors": ["eskf_vio_backend/src/backend/backend.cpp: RunOnce, PublishPropagateState", "eskf_vio_backend/src/backend/backend_initialize.cpp: InitializePropagator"]}
{"id": "C39", "title": "Sensor bias is removed exactly once", "statement": "Every measurement integrated by the propagator has the current bias subtracted exactly once. (True for samples arriving after initialization; false for the samples replayed at a re-initialization, which were already bias-corrected by the attitude estimator.)", "quantifier": "all histories", "why_tests_cant": "shows only after a re-initialization with non-zero bias", "anchors": ["eskf_vio_backend/src/backend/backend_initialize.cpp: InitializePropagator", "eskf_vio_backend/src/propagate/attitude_estimate.cpp: Propagate", "eskf_vio_backend/src/propagate/sequence_propagator.cpp: PropagateMotionNominalState"]}
{"id": "C40", "title": "Attitudes stay unit quaternions", "statement": "In exact arithmetic, if the head attitude is a unit quaternion, every propagated, repropagated or vision-corrected attitude (IMU, frames, camera extrinsics) is a unit quaternion.", "quantifier": "all measurements, biases, time steps, corrections", "why_tests_cant": "algebraic identity over reals", "anchors": ["eskf_vio_backend/src/propagate/sequence_propagator.cpp: PropagateMotionNominalState", "eskf_vio_backend/include/utility/math_lib.hpp: DeltaQ", "eskf_vio_backend/src/update/multi_view_vision_update.cpp: UpdateState"]}
{"id": "C41", "title": "Nominal propagation integrates the motion", "statement": "In exact arithmetic, a sensor that measures exactly gravity in its own frame and no rotation stays at rest forever (constant velocity, position advancing by velocity times time, attitude fixed), for any number of steps and step sizes; with constant attitude and constant specific force the position and velocity follow the uniformly accelerated motion exactly over each step.", "quantifier": "all sequences of samples and step sizes", "why_tests_cant": "exact statement over reals and all sequence lengths", "anchors": ["eskf_vio_backend/src/propagate/sequence_propagator.cpp: PropagateMotionNominalState"]}
{"id": "C42", "title": "IMU covariance stays symmetric positive semidefinite under propagation", "statement": "In exact arithmetic, if the full covariance (IMU, extrinsics, cloned poses) is symmetric positive semidefinite and the noise parameters are non-negative, the full covariance assembled from any propagated or repropagated item is again symmetric positive semidefinite.", "quantifier": "all samples, attitudes, time steps, matrix sizes, sequence lengths", "why_tests_cant": "real-valued matrix inequality over all sizes", "anchors": ["eskf_vio_backend/src/propagate/sequence_propagator.cpp: PropagateFullErrorStateCovariance, InitializeProcessNoiseMatrix"]}
{"id": "C43", "title": "State augmentation clones the IMU pose", "statement": "ExpandCameraCovariance yields exactly the covariance of the state extended by a copy of the IMU position and attitude: the new rows and columns equal those of position and attitude, old entries are unchanged, no uninitialised entry survives, and symmetry and positive semidefiniteness are preserved.", "quantifier": "all covariance matrices, window sizes, camera counts, and uninitialised memory contents", "why_tests_cant": "all sizes and all junk values", "anchors": ["eskf_vio_backend/src/update/multi_view_vision_update.cpp: ExpandCameraCovariance"]}
{"id": "C44", "title": "Marginalization removes exactly the dropped frame's rows and columns", "statement": "For every policy ReduceCameraCovariance yields the principal submatrix obtained by deleting the six rows and columns of the frame which the frame manager drops under the same policy, so the k-th covariance block always belongs to the k-th frame left; symmetry and positive semidefiniteness are preserved; all block accesses are in bounds.", "quantifier": "all symmetric covariances, window sizes, camera counts", "why_tests_cant": "index arithmetic over all sizes", "anchors": ["eskf_vio_backend/src/update/multi_view_vision_update.cpp: ReduceCameraCovariance", "eskf_vio_backend/src/backend/backend.cpp: MarginalizeFeatureFrameManager"]}
{"id": "C45", "title": "Kalman update contracts the covariance", "statement": "In exact arithmetic, with a symmetric positive semidefinite prior, positive measurement noise and an exact inverse, the updated covariance is symmetric, positive semidefinite and not larger than the prior (difference positive semidefinite); the correction is K*r, and it vanishes for a zero residual.", "quantifier": "all priors, measurement matrices, residuals and sizes", "why_tests_cant": "matrix inequality over all sizes", "anchors": ["eskf_vio_backend/src/update/multi_view_vision_update.cpp: UpdateState", "eskf_vio_backend/include/utility/math_lib.hpp: Inverse"]}
{"id": "C46", "title": "Measurement compression does not change the update", "statement": "Compressing the stacked measurement by the QR factorization (when it has more rows than columns) leaves the state correction and the updated covariance unchanged, in exact arithmetic.", "quantifier": "all measurement matrices, priors, sizes, orthogonal factors", "why_tests_cant": "equality over all sizes", "anchors": ["eskf_vio_backend/src/update/multi_view_vision_update.cpp: ConstructMeasurementFunction(void)"]}
{"id": "C47", "title": "Null-space projection removes the feature position", "statement": "The projected measurement of a feature does not depend on the error of its position, for any error: rows kept after the QR step annihilate the feature Jacobian, and the number of rows kept is 2*observations-3.", "quantifier": "all features, errors, orthogonal factors", "why_tests_cant": "for-all over reals", "anchors": ["eskf_vio_backend/src/update/multi_view_vision_update.cpp: ConstructMeasurementFunction(feature)"]}
{"id": "C48", "title": "Measurement Jacobians are the derivatives of the projection", "statement": "The blocks written into the measurement matrix are the exact partial derivatives of the predicted normalized coordinates with respect to the feature position, the frame position, the frame attitude (right perturbation used by the state update), and the camera extrinsics; the same holds for the PnP and iterative triangulation Jacobians.", "quantifier": "all poses, extrinsics and points with non-zero depth", "why_tests_cant": "derivative identity over reals", "anchors": ["eskf_vio_backend/src/update/multi_view_vision_update.cpp: ConstructMeasurementFunction(feature)", "eskf_vio_backend/src/geometry/perspective_n_point.cpp: EstimatePose", "eskf_vio_backend/src/geometry/trianglation.cpp: CumputeJacobian"]}
{"id": "C49", "title": "Measurement matrix layout is in bounds and collision free", "statement": "For tracks inside the window every block written into the measurement matrices is in bounds, blocks of different states do not overlap, the newest frame maps to the IMU pose columns, frame k to its own clone columns, and exactly 2*observeNum rows are filled.", "quantifier": "all windows, camera counts, tracks", "why_tests_cant": "index arithmetic over all sizes", "anchors": ["eskf_vio_backend/src/update/multi_view_vision_update.cpp: ConstructMeasurementFunction"]}
{"id": "C50", "title": "Feature selection", "statement": "The features used for an update are distinct, all linked to the newest frame, all successfully triangulated in this update, at most the configured maximum, and all of them are used when they are not more than the maximum and the random scores do not collide.", "quantifier": "all windows, random draws, solver results, iteration orders", "why_tests_cant": "for all random outcomes", "anchors": ["eskf_vio_backend/src/update/multi_view_vision_update.cpp: SelectGoodFeatures"]}
{"id": "C51", "title": "Linear triangulation is exact on exact data and rejects points behind cameras", "statement": "The homogeneous true point lies in the kernel of the linear system built from exact observations, and conversely any kernel vector with non-zero last component dehomogenizes to a point that reprojects exactly; success implies at least two views, a finite point, and non-negative depth in every view; fewer than two views is refused without touching the output.", "quantifier": "all poses, points, numbers of views, SVD outcomes", "why_tests_cant": "for-all over reals", "anchors": ["eskf_vio_backend/src/geometry/trianglation.cpp: TrianglateAnalytic"]}
{"id": "C52", "title": "Failed triangulation leaves the point unchanged", "statement": "When TrianglateAnalytic returns false the output point keeps its previous value. (False when the depth test fails: the rejected point is already stored.)", "quantifier": "all inputs", "why_tests_cant": "specific inputs only", "anchors": ["eskf_vio_backend/src/geometry/trianglation.cpp: TrianglateAnalytic"]}
{"id": "C53", "title": "Iterative triangulation terminates and never worsens the cost", "statement": "TrianglateIterative performs at most 11 outer times 11 inner iterations, always returns true, and in exact arithmetic its final reprojection cost is not larger than the initial one, for any linear solver behaviour.", "quantifier": "all inputs and solver behaviours", "why_tests_cant": "termination and monotonicity for all solver results", "anchors": ["eskf_vio_backend/src/geometry/trianglation.cpp: TrianglateIterative"]}
{"id": "C54", "title": "PnP refinement", "statement": "EstimatePose and EstimatePoseKernel refuse empty or mismatched input without touching the pose, perform at most the configured number of iterations, keep the attitude a unit quaternion, and leave a pose that already reprojects every point exactly unchanged. EstimatePoseP3P reports success exactly for equally many points and image points, at least three, and never touches the pose. (False that EstimatePoseP3P, when it reports success, returns a pose under which the points reproject: it returns the caller's guess.)", "quantifier": "all inputs, solver behaviours", "why_tests_cant": "for all inputs", "anchors": ["eskf_vio_backend/src/geometry/perspective_n_point.cpp: EstimatePose, EstimatePoseKernel, EstimatePoseP3P"]}
{"id": "C55", "title": "RANSAC terminates", "statement": "EstimatePoseRANSAC terminates on every non-empty matched input. (False: with one or two points the sampling loop never ends, whatever the random numbers; with three or more it ends as soon as three distinct indices were drawn.)", "quantifier": "all inputs and all random streams", "why_tests_cant": "non-termination cannot be observed by a test", "anchors": ["eskf_vio_backend/src/geometry/perspective_n_point.cpp: EstimatePoseRANSAC"]}
{"id": "C56", "title": "RANSAC returns its best model", "statement": "The pose left by EstimatePoseRANSAC has the highest inlier score among the models tried. (False: the last model tried is left in the output.)", "quantifier": "all inputs and random streams", "why_tests_cant": "depends on the random stream", "anchors": ["eskf_vio_backend/src/geometry/perspective_n_point.cpp: EstimatePoseRANSAC"]}
{"id": "C57", "title": "RANSAC inlier flags", "statement": "The overload with inlier flags reports, for each point, true exactly when its squared reprojection error is below the threshold. (False when the vector is not empty on entry: stale false flags survive.)", "quantifier": "all inputs, all prior contents of the flag vector", "why_tests_cant": "depends on caller state", "anchors": ["eskf_vio_backend/src/geometry/perspective_n_point.cpp: EstimatePoseRANSAC(isInlier)"]}
{"id": "C58", "title": "Robust weights", "statement": "The Cauchy weight used by the PnP kernel lies in (0,1] and does not increase with the residual.", "quantifier": "all residuals", "why_tests_cant": "real inequality", "anchors": ["eskf_vio_backend/include/geometry/perspective_n_point.hpp: Cauchy, Huber"]}
{"id": "C59", "title": "A level sensor initializes the attitude estimator", "statement": "When the bias-corrected acceleration equals gravity exactly, the attitude estimator starts with the identity attitude. (False: the rotation axis is 0/0 and in IEEE arithmetic the attitude becomes NaN, and stays NaN for every later sample.)", "quantifier": "all later sample sequences", "why_tests_cant": "poisoning over all futures", "anchors": ["eskf_vio_backend/src/propagate/attitude_estimate.cpp: Propagate"]}
{"id": "C60", "title": "The initial attitude aligns gravity", "statement": "The initial attitude rotates the measured gravity direction onto the vertical. (In exact arithmetic the rotation axis is right but the angle is 2*atan(theta/2) instead of theta, so this holds only approximately for small tilt.)", "quantifier": "all initial accelerations within the norm gate and not parallel to gravity", "why_tests_cant": "real identity", "anchors": ["eskf_vio_backend/src/propagate/attitude_estimate.cpp: Propagate"]}
{"id": "C61", "title": "The attitude estimator and the propagator rotate the same way", "statement": "With no accelerometer error, one attitude-estimator step turns the attitude by the same rotation as one propagator step with the same gyro samples. (False: the increments are conjugate to each other.)", "quantifier": "all gyro samples, time steps", "why_tests_cant": "sign convention over all inputs", "anchors": ["eskf_vio_backend/src/propagate/attitude_estimate.cpp: Propagate", "eskf_vio_backend/src/propagate/sequence_propagator.cpp: PropagateMotionNominalState"]}
{"id": "C62", "title": "The accelerometer correction reduces the tilt error", "statement": "With zero rotation rate and zero integral term, one attitude-estimator step brings the predicted gravity direction closer to the measured one. (False: it moves it away whenever the two directions are not parallel.)", "quantifier": "all attitudes, accelerations, positive time steps", "why_tests_cant": "real inequality over all inputs", "anchors": ["eskf_vio_backend/src/propagate/attitude_estimate.cpp: Propagate lines 48-59"]}
{"id": "C63", "title": "Quaternion and skew helper identities", "statement": "The skew matrix implements the cross product; Qleft(q) and Qright(p) implement quaternion multiplication from the left and right, in both overloads; the transform matrix maps homogeneous points as rotation then translation; rotating by a unit quaternion agrees with its rotation matrix, preserves norms and is undone by the inverse.", "quantifier": "all vectors and quaternions", "why_tests_cant": "algebraic identities", "anchors": ["eskf_vio_backend/include/utility/math_lib.hpp: SkewSymmetricMatrix, Qleft, Qright, TransformMatrix"]}
{"id": "C64", "title": "Error state packing round-trips", "statement": "Packing an IMU error state into the 15-vector and unpacking it returns the same position, velocity, rotation and bias errors; index blocks do not overlap and cover the vector.", "quantifier": "all error states", "why_tests_cant": "all values", "anchors": ["eskf_vio_backend/src/propagate/sequence_propagator.cpp: ErrorStateConvert", "eskf_vio_backend/include/propagate/imu_state.hpp"]}
{"id": "C65", "title": "Symmetric inverse", "statement": "Given an exact eigen-decomposition, Utility::Inverse returns the inverse when all eigenvalues exceed 1e-10, and in general the pseudo-inverse restricted to eigenvalues above 1e-10.", "quantifier": "all symmetric matrices and sizes", "why_tests_cant": "all sizes", "anchors": ["eskf_vio_backend/include/utility/math_lib.hpp: Inverse"]}
{"id": "C66", "title": "Configuration loading", "statement": "LoadMatrix returns false and changes nothing when the file cannot be opened, and on success stores exactly the numbers of the file. (False: a file with too few rows or numbers succeeds and leaves entries unspecified, one with too many rows writes out of bounds; ReadConfigParams always returns true and keeps the singleton's previous values for missing files; camera files are read consecutively from 0 up to the first missing one.)", "quantifier": "all file contents", "why_tests_cant": "all malformed inputs", "anchors": ["eskf_vio_backend/src/config/config.cpp: LoadMatrix, ReadConfigParams"]}
{"id": "C67", "title": "Removing the second-newest frame keeps frames and features aligned", "statement": "Removing the second-newest frame (MARG_SUBNEW) leaves every remaining frame with exactly its own observations. (False for a window of exactly two frames: RemoveFrame(0) does not renumber while RemoveByFrameID(..., true) does, so the remaining frame loses its observations; with three or more frames it holds. Whether RunOnce can get there depends on DecideMargPolicy, which with two frames classifies the second-newest frame, being the oldest, as a keyframe and chooses MARG_OLDEST.)", "quantifier": "all windows of two or more frames", "why_tests_cant": "needs the particular window size and policy", "anchors": ["eskf_vio_backend/src/backend/backend.cpp: MarginalizeFeatureFrameManager", "eskf_vio_backend/src/data_manager/vision_data/frame_manager.cpp: RemoveFrame", "eskf_vio_backend/src/data_manager/vision_data/feature_manager.cpp: RemoveByFrameID"]}
{"id": "C68", "title": "The covariance follows the error-state process model", "statement": "Each new item of the propagation queue, and each consecutive pair of items after a repropagation, has cov1 = F cov0 F^T + G Q G^T and cross covariance F ecov0, where F maps an error state as p+v dt, v-R(a x th+ba)dt, th-(w x th+bg)dt with biases unchanged, G is the effect of the sensor noises over the step and Q holds the configured noise values; whatever the vision update did to the states in between.", "quantifier": "all queues reachable by propagating, repropagating, cutting and rewriting states; all measurements (exact arithmetic)", "why_tests_cant": "225 matrix entries over all inputs and histories", "anchors": ["eskf_vio_backend/src/propagate/sequence_propagator.cpp: PropagateFullErrorStateCovariance, ResetProcessFunction, InitializeProcessNoiseMatrix"]}
{"id": "C69", "title": "Camera rotations are read correctly", "statement": "When the rotation part of a camera's extrinsic file is a rotation matrix, the stored quaternion is a unit quaternion that turns vectors exactly as that matrix does.", "quantifier": "all rotation matrices (exact arithmetic)", "why_tests_cant": "every branch of the conversion, all rotations", "anchors": ["eskf_vio_backend/src/config/config.cpp: ReadConfigParams line 49"]}
{"id": "C70", "title": "Configuring a back end", "statement": "ConfigParams leaves the back end ready to start: not initialized, empty window, one extrinsic for each camera file read. In exact arithmetic camera k is mounted as the rigid transformation of file k says, a uniformly moving body that measures the reaction to the configured gravity plus the configured biases is propagated uniformly, the four noise parameters lie on the process noise diagonal in the order of the file, and period, measurement noise, window size and keyframe policy are those of their files. (The start state holds for a new back end; false for a running one, which keeps its window and covariance while the extrinsics are replaced and can then no longer be updated.)", "quantifier": "all configurations and back-end states", "why_tests_cant": "state left over from earlier runs", "anchors": ["eskf_vio_backend/src/backend/backend_config.cpp: ConfigParams"]}
{"id": "C71", "title": "Each state is corrected by its own part of the error vector", "statement": "When UpdateState applies a correction vector, the position, velocity, attitude and biases of the IMU state, the pose of every camera and the pose of every frame each move by exactly the three entries in whose columns their Jacobian was written (positions, velocities and biases are added to, attitudes multiplied on the right by (1, theta/2) and normalized), the newest frame becomes the corrected IMU state, and nothing else changes; after a successful Update the newest frame's pose and velocity equal those of the first queued state.", "quantifier": "all correction vectors, window sizes, numbers of cameras and scalar types", "why_tests_cant": "all window sizes; a wrong offset still gives a plausible trajectory", "anchors": ["eskf_vio_backend/src/update/multi_view_vision_update.cpp: UpdateState, UpdateNewestFramePose, Update"]}
{"id": "C72", "title": "The test program has defined behaviour", "statement": "test_eskf_vio_backend runs without undefined behaviour in the back end whatever its three data files contain (missing, short, non-numeric, unordered), provided at least two cameras are configured; the shipped configuration qualifies.", "quantifier": "all contents of the data files, all external solver results, all contents of uninitialised variables", "why_tests_cant": "all file contents", "anchors": ["apps/test_eskf_vio_backend.cpp: main, LoadIMUData, LoadFeaturesData"]}
{"id": "C73", "title": "The test program loads its data files", "statement": "From well-formed files the program pushes the samples in file order up to and including the first one later than the limit, counts them, and builds one features message per image in which every point is seen by exactly cameras 0 and 1 under its own index. (False in two ways: the limit of 100 s is compared with the time already shifted by one second, so samples between 99 and 100 s are lost; a line with too few numbers is not skipped but sends the values of the previous line, or uninitialised memory, to the filter.)", "quantifier": "all well-formed files", "why_tests_cant": "all file contents", "anchors": ["apps/test_eskf_vio_backend.cpp: LoadIMUData, LoadFeaturesData"]}
{"id": "C74", "title": "Simulated observations are exact", "statement": "In exact arithmetic the observations simulated for both cameras have residual zero in the filter's measurement function when the frame has the body pose from which camera 0's pose of that line arises, with the cameras mounted as in the shipped camera files.", "quantifier": "all unit attitudes, positions and points (exact arithmetic)", "why_tests_cant": "all poses and points", "anchors": ["apps/test_eskf_vio_backend.cpp: LoadFeaturesData lines 83-112", "eskf_vio_backend/src/update/multi_view_vision_update.cpp"]}
{"id": "C75", "title": "The test program's main loop", "statement": "With IMU times that never go back the loop makes one pass per loaded sample unless a published position is NaN; saved poses are in order of time, contain no NaN x position and are at most one per pass; afterwards at most as many messages remain as there were images. (False that all loaded data is processed: every image delivered alone uses up one pass, so with images earlier than the IMU data no sample is processed.)", "quantifier": "all well-formed files, all back-end behaviours", "why_tests_cant": "all file contents and histories", "anchors": ["apps/test_eskf_vio_backend.cpp: main"]}
{"id": "C76", "title": "Attitudes are unit quaternions during the whole run", "statement": "From unit camera rotations, after any sequence of calls, every attitude in the back end (cameras, frames, attitude estimator, initial state, queue) and every published attitude is a unit quaternion, whatever the external solvers return.", "quantifier": "all histories of calls, measurements and solver results (exact arithmetic)", "why_tests_cant": "all histories; drift of the norm only shows in long runs", "anchors": ["eskf_vio_backend/src/backend/backend.cpp: RunOnce", "eskf_vio_backend/src/backend/backend_initialize.cpp", "eskf_vio_backend/src/update/multi_view_vision_update.cpp: UpdateState"]}
{"id": "C77", "title": "The covariance stays positive semidefinite during the whole run", "statement": "With non-negative process noise and an exact eigen-solver, after any sequence of calls the covariance of every queued state together with the extrinsics and cloned poses is symmetric positive semidefinite, through initialization, propagation, updates, augmentation, marginalization, lost tracks and resets.", "quantifier": "all histories of calls and measurements (exact arithmetic)", "why_tests_cant": "all histories and window sizes; a wrong block only matters many updates later", "anchors": ["eskf_vio_backend/src/backend/backend.cpp: RunOnce", "eskf_vio_backend/src/update/multi_view_vision_update.cpp: Update", "eskf_vio_backend/src/propagate/sequence_propagator.cpp"]}
{"id": "C78", "title": "The process matrices linearise the nominal step", "statement": "An error of the state (position, velocity, body-frame rotation, biases) and a noise of the two IMU samples before a propagation step appear after the step in exactly one direction, which agrees with the process model used for the covariance up to second order in the time step; the position error follows the trapezoidal velocity error exactly.", "quantifier": "all states, measurements, error directions and gravity vectors (exact arithmetic)", "why_tests_cant": "a wrong sign or frame in one block is hidden by noise and only shows as an inconsistent covariance", "anchors": ["eskf_vio_backend/src/propagate/sequence_propagator.cpp: PropagateMotionNominalState, PropagateFullErrorStateCovariance"]}
{"id": "C79", "title": "A vision update does not observe the global pose", "statement": "With exact QR factors, the stacked, projected and compressed measurement has no component along a common shift and rotation of the whole world; a prior uncertainty in that direction changes neither the correction nor its own variance.", "quantifier": "all windows, numbers of cameras, features, observations, shifts and rotations (exact arithmetic)", "why_tests_cant": "spurious information about unobservable directions only shows as overconfidence in long runs", "anchors": ["eskf_vio_backend/src/update/multi_view_vision_update.cpp: ConstructMeasurementFunction, UpdateState, UpdateCovariance"]}
{"id": "C80", "title": "The feedback of the attitude estimator", "statement": "Over any series of samples the attitude estimator follows the mean rate corrected by Kp times the present tilt error plus the carried integral, and the integral grows by exactly Ki times the sum of the tilt errors: at most Ki per sample, and by no smaller bound, since constant tilted accelerations make it grow by Ki at every sample.", "quantifier": "all starting states, gravity vectors and series of samples in order of time (exact arithmetic)", "why_tests_cant": "integral wind-up depends on the whole history of samples", "anchors": ["eskf_vio_backend/src/propagate/attitude_estimate.cpp: Propagate"]}
{"id": "C81", "title": "Geometry of the initialization", "statement": "With exact stereo observations and an exact decomposition the first frame is placed at the origin with the nearest estimated attitude, its features are triangulated to the true points, and the second pose is that of the body carrying the camera refined from exact observations of all features seen by camera 0 (at least ten, else the attempt fails); if the refinement finds the true camera pose the second frame is at the true pose and both frames get the displacement over the time as velocity. A sensor at rest is found at rest.", "quantifier": "all windows, attitudes, mountings, numbers of cameras, points and poses (exact arithmetic)", "why_tests_cant": "a wrong frame, camera or order of the mountings in one of four coordinate changes is hidden when the mounting is close to the identity", "anchors": ["eskf_vio_backend/src/backend/backend_initialize.cpp: Initialize, TrianglizeMultiView, EstimateFramePose, InitializePropagator"]}
{"id": "C82", "title": "The steps of the iterative triangulation", "statement": "TrianglateIterative hands the linear solver only symmetric positive definite systems; a rejected step multiplies the damping by ten and an accepted one divides it by ten, within fixed bounds; and every step is downhill for the reprojection cost unless the point is stationary. (The last part holds when no residual exceeds 0.01. False otherwise: the system is weighted and the cost is not, so all steps can go uphill and the estimate never moves although it is not optimal; it does hold for the cost that the weights belong to.) The rounds start with the damping 0.001 and end with the first whose last trial is no longer than 5e-7, or with the eleventh. From a stationary point of that cost the loops reject eleven steps and return the very point.", "quantifier": "all views, observations, starting points and solvers (exact arithmetic)", "why_tests_cant": "all geometries; tests start close to the solution, where no residual is large", "anchors": ["eskf_vio_backend/src/geometry/trianglation.cpp: TrianglateIterative, CumputeJacobian"]}
{"id": "C83", "title": "The steps of the pose refinement", "statement": "Every pass of EstimatePose is a Gauss-Newton step: the correction minimises the linearised sum of squared reprojection errors of the points off the camera plane, and goes downhill for the sum itself unless the pose is stationary. EstimatePoseKernel does the same for its weights and the loss that grows linearly beyond a residual of one. With an exact solver neither fails, and both stop after the first correction shorter than the epsilon or the allowed number of passes.", "quantifier": "all points, observations, starting poses, parameters and solvers of consistent semidefinite systems (exact arithmetic)", "why_tests_cant": "a wrong side of the attitude correction or a wrong weight still converges on the data of a test", "anchors": ["eskf_vio_backend/src/geometry/perspective_n_point.cpp: EstimatePose, EstimatePoseKernel", "eskf_vio_backend/include/geometry/perspective_n_point.hpp: Cauchy"]}
{"id": "C84", "title": "An estimator at the truth stays at the truth", "statement": "One update of a moving body whose window and queue are at the truth and whose observations are exact changes no pose, velocity, bias or mounting. An initialized back end whose body rests at the pose it believes in, with the biases it believes in, publishes exactly this pose and zero velocity after any further calls that deliver exact samples and images. Without biases this also holds across any number of resets, lost tracking and new initializations.", "quantifier": "all windows, mountings, numbers of cameras, points, attitudes, biases, covariances and series of calls; all eigenvector, QR and random-number results (exact arithmetic, exact singular value decomposition)", "why_tests_cant": "a fixed point has to be exact in every place at once; tests accept a drift below a tolerance and cannot cover all configurations and call orders", "anchors": ["eskf_vio_backend/src/update/multi_view_vision_update.cpp: Update", "eskf_vio_backend/src/backend/backend.cpp: RunOnce", "eskf_vio_backend/src/backend/backend_initialize.cpp: Initialize", "eskf_vio_backend/src/propagate/sequence_propagator.cpp: Propagate", "eskf_vio_backend/src/propagate/attitude_estimate.cpp: Propagate"]}
{"id": "C85", "title": "No IMU sample is lost, doubled or reordered", "statement": "For samples pushed in order of time, the attitude queue followed by the samples still waiting in the loader is the end of the stream of accepted samples, also across resets and failures. In a session with one initialization the same holds, reading by reading, for the propagation queue: after a prefix that was already used, every accepted sample occurs exactly once, unchanged and in order; with nothing waiting, the newest published state is that at the last accepted sample. (False after a Reset: samples occur twice and the queue goes back in time. False for samples out of order: one accepted by the loader is dropped.)", "quantifier": "all series of calls, messages and configurations; float arithmetic with any libm", "why_tests_cant": "the order of samples, images, initialization and updates has unboundedly many interleavings", "anchors": ["eskf_vio_backend/src/backend/backend.cpp: RunOnce", "eskf_vio_backend/src/backend/backend_initialize.cpp: InitializePropagator", "eskf_vio_backend/src/data_manager/data_loader.cpp: PushIMUMessage, PopOneMessage", "eskf_vio_backend/src/propagate/attitude_estimate.cpp: Propagate, CleanOldItems", "eskf_vio_backend/src/propagate/sequence_propagator.cpp: Propagate, ResetOrigin"]}
{"id": "C86", "title": "The attitude estimator and the propagator use the same biases", "statement": "No call changes a bias of the attitude estimator or of the propagator except a RunOnce that uses an image and leaves the back end initialized, and after such a call both have the same biases. Hence they agree whenever the back end is initialized, and they agree or have their initial values otherwise. (False before the first update: the configured biases are not given to the attitude estimator, so the samples that give the first attitude keep them.)", "quantifier": "all series of calls, messages, configurations and external results; any arithmetic", "why_tests_cant": "a bias that is not handed over shows only as a slow drift, and all interleavings of calls matter", "anchors": ["eskf_vio_backend/src/backend/backend.cpp: RunOnce", "eskf_vio_backend/src/update/multi_view_vision_update.cpp: Update", "eskf_vio_backend/src/propagate/attitude_estimate.cpp: Propagate", "eskf_vio_backend/src/backend/backend_config.cpp: ConfigParams"]}
{"id": "C87", "title": "The queues hold only what is needed since the newest image", "statement": "After an image that leaves the back end initialized, the newest frame has the time of that image. While the back end is initialized, the propagation queue holds nothing older than one IMU period before the newest frame; together with the waiting samples it is never longer than the number of accepted samples from then on, so memory does not grow with the length of the run. The attitude queue is trimmed likewise. (False for the attitude queue with a window of one frame, and while initialization keeps failing: nothing is removed.)", "quantifier": "all series of calls with samples pushed in order of time, configurations with at least two frames, periods and messages; float arithmetic with any libm", "why_tests_cant": "a queue that keeps growing is only noticed after hours; the comparison of times in two precisions has to be monotone for all doubles", "anchors": ["eskf_vio_backend/src/backend/backend.cpp: RunOnce", "eskf_vio_backend/src/propagate/sequence_propagator.cpp: ResetOrigin", "eskf_vio_backend/src/propagate/attitude_estimate.cpp: CleanOldItems", "eskf_vio_backend/src/data_manager/vision_data/frame_manager.cpp: AddNewFrame, RemoveFrame", "eskf_vio_backend/src/update/multi_view_vision_update.cpp: Update"]}
{"id": "C88", "title": "A NaN sample does no lasting harm", "statement": "An IMU sample with a NaN component is refused, or at least its effect ends with a Reset and a new initialization. (False: the length test of the attitude estimator is a comparison that is false for NaN, so the sample is accepted and RunOnce reports success. From then on, whatever calls follow, every position and velocity published for the newest sample while initialized is NaN - across images, lost tracking, Resets and new initializations - and so is the newest attitude. The only exception is a queue holding the single item of a new initialization. A first sample exactly along gravity has the same effect without any NaN input.)", "quantifier": "all series of calls before and after, configurations, messages and external results; float arithmetic with any libm", "why_tests_cant": "tests feed finite samples; that no later series of calls recovers is a statement about all of them", "anchors": ["eskf_vio_backend/src/propagate/attitude_estimate.cpp: Propagate, CleanOldItems", "eskf_vio_backend/src/propagate/sequence_propagator.cpp: Propagate, Repropagate, ResetOrigin", "eskf_vio_backend/src/backend/backend.cpp: RunOnce, Reset", "eskf_vio_backend/src/backend/backend_initialize.cpp: Initialize, InitializePropagator", "eskf_vio_backend/src/update/multi_view_vision_update.cpp: UpdateState"]}
{"id": "C89", "title": "The test programs of the geometry module test what they announce", "statement": "test_trianglate builds six exact views of the point (2, 2, 2) with non-parallel rays, so its analytic test prints this point as the result whenever the decomposition is exact; its iterative test prints the point that was set next to the result. test_pnp accesses no index out of range for any random stream; its observations are exact except at the at most seven drawn indices, where they are not those of the pose; the true pose has a RANSAC score of exactly the undisturbed pairs and RANSAC stops there as soon as it tries it. All three printed poses are reached from the identity at the origin by steps of their own method, none from the result of another. (False for the iterative test: both printed points are the result, so they agree whatever the solver does. And for neither of the two refinements is the true pose a solution: the first pass leaves it, for every random stream.)", "quantifier": "all random streams, decompositions, solvers and loop bounds; index safety for every scalar type, geometry in exact arithmetic", "why_tests_cant": "the programs are the tests: they print and compare nothing, with one random stream and one platform's arithmetic", "anchors": ["apps/test_trianglate.cpp: TestTrianglateAnalytic, TestTrianglateIterative", "apps/test_pnp.cpp: main", "eskf_vio_backend/src/geometry/trianglation.cpp: TrianglateAnalytic, TrianglateIterative", "eskf_vio_backend/src/geometry/perspective_n_point.cpp: EstimatePose, EstimatePoseKernel, EstimatePoseRANSAC"]}
{"id": "C90", "title": "A vision update is the least-squares estimate of states and points together", "statement": "Take the first-order measurement model of all selected tracks, with a free correction of every point next to the correction x of the states. The correction that the vision update computes, after removing the points by one QR factorization per feature, stacking, compressing by a second QR factorization and the Kalman formula, is the one and only minimum of x^t P^-1 x + (sum of all squared misfits) / noise^2 over states and points together; the new covariance is the curvature there: at dx + P' z the best points cost z^t P' z more than the minimum. P may be singular (x = P y and y^t P y in place of x^t P^-1 x), as it is after a pose has been cloned.", "quantifier": "all windows, cameras, extrinsics, numbers of features and observations, orders, positive semidefinite covariances and noises with noise^2 above the threshold of Inverse; exact arithmetic, exact factorizations, tracks whose views determine the point", "why_tests_cant": "a test would need an independent bundle adjustment and could only compare samples up to rounding", "anchors": ["eskf_vio_backend/src/update/multi_view_vision_update.cpp: ConstructMeasurementFunction, UpdateState"]}
{"id": "C91", "title": "The result of a vision update does not depend on orders and factorizations", "statement": "Two vision updates with the same features in any two orders, with cameras visited in any two orders, with any two exact orthogonal factors and any two exact eigen-decompositions compute the same correction and the same covariance. (False for a feature that its views do not determine, as two views from the same place: three rows are dropped although only two belong to the point, and which information is lost depends on the orthogonal factor.)", "quantifier": "all windows, cameras, features, orders, factors and decompositions; exact arithmetic, tracks whose views determine the point", "why_tests_cant": "the iteration order of the hash maps and the signs chosen by the linear algebra library are fixed in any one build", "anchors": ["eskf_vio_backend/src/update/multi_view_vision_update.cpp: ConstructMeasurementFunction, UpdateState"]}
{"id": "C92", "title": "The timer measures the time between its calls", "statement": "Every call of TickTock returns a finite number of milliseconds since the previous call (the first: since the construction) with a relative error of at most 2^-23; the results of a run add up to the time it took with the same relative error; the sign of a result tells whether the clock went forward, and a longer interval never shows as a shorter time. test_pnp prints the times of its three solver calls without its own printing. (False: that a time is never negative, since system_clock can be set back; that different intervals give different results; that a call is defined for any two 64-bit readings.)", "quantifier": "all sequences of clock readings from 1970 to 2262 (non-decreasing for the sum), any number of calls; bit-exact double and float arithmetic", "why_tests_cant": "a test cannot set the clock; the rounding of the count, the division, the product and the narrowing must be bounded for all 2^63 intervals", "anchors": ["eskf_vio_backend/src/utility/tick_tock.cpp: TickTockTimer, TickTock", "apps/test_pnp.cpp: main"]}
{"id": "C93", "title": "The printed listing of the window is the window", "statement": "After any history within the contract of the front end, FeatureManager::Information prints exactly the observations in the messages of the frames in the window, each once, under the right feature, frame and camera; its headers name every feature of these messages once, with exactly the range of frames that observe it; the number in a header is the number of observations below it modulo 2^32. FrameManager::Information prints the frames in order, with the time and the number of features of their messages. (False for a feature constructed without observations: its last frame is before its first.)", "quantifier": "all histories of messages and marginalizations, iteration orders of the maps and scalar types", "why_tests_cant": "the listing depends on the whole history and on the iteration order of the hash maps", "anchors": ["eskf_vio_backend/src/data_manager/vision_data/feature_manager.cpp: Information", "eskf_vio_backend/src/data_manager/vision_data/frame_manager.cpp: Information"]}
{"id": "C94", "title": "The printed messages and configuration are complete and correctly named", "statement": "Printing a features message is defined exactly if it has an observation for every id, which the constructor ensures; the lines then contain exactly its observations, and those of a combined message its IMU samples in order. The listing of the configuration shows every parameter exactly once under its name and every camera with its own translation and rotation, so that it determines the configuration; after ReadConfigParams it is defined whatever the files were, and the printed number of cameras is the number of cameras listed modulo 2^32. (False: that any message can be printed; before a configuration is read two cameras are announced and none is listed.)", "quantifier": "all messages, configurations, directories of files and scalar types", "why_tests_cant": "that no two parameters are exchanged or shown twice is a statement about all values; the index into the observations is not checked by the code", "anchors": ["eskf_vio_backend/src/data_manager/data_typedef.cpp: Information", "eskf_vio_backend/src/config/config.cpp: Information, ReadConfigParams"]}
{"id": "C95", "title": "What a vision update minimises is the reprojection error of the corrected state", "statement": "The misfit of a measurement in the problem that a vision update solves (C90) is the first-order expansion of the reprojection error - measured minus predicted normalized coordinates - in the state after the correction of C71 and with the point moved: equal to it for the zero correction, affine along every line of corrections, and with the derivative of the reprojection error of the corrected states. The sign of the residual, the columns of the Jacobians and the injection of the error vector therefore fit together. (False for a point less than 1e-10 in front of the camera, whose measurement is replaced by zeros.)", "quantifier": "all windows and cameras with unit attitudes, all points farther than the threshold from the image plane, image points, corrections and movements of the point, real arithmetic", "why_tests_cant": "a wrong sign or column still produces plausible numbers; the claim is a derivative in a space of any dimension", "anchors": ["eskf_vio_backend/src/update/multi_view_vision_update.cpp: ConstructMeasurementFunction, UpdateState"]}
{"id": "C96", "title": "A vision update of a run, from the messages to the new states", "statement": "In every run of a configured back end with exact factorizations, a successful vision update for a features message does the following. The newest frame takes the propagated state of the image time. The tracks used are distinct, at most the configured number, reported by the message and triangulated; all such tracks are used when they fit and their random scores differ. The measurements of a used track are exactly what the messages of the window reported for it: frame, camera and image point. If every used point is seen in two different directions, the correction is the unique joint least-squares estimate of states and points from the prior covariance and these measurements, and the new covariance is its curvature. All states move by that correction; the queue starts at the corrected state and follows from it by the same samples with the corrected biases; the stored covariance is the new one after cloning the newest pose and dropping the poses of the frame that leaves the window. Two different directions are exactly what fixes a point.", "quantifier": "all runs of a new back end: any messages with good tracks, calls, orders, random scores and configurations within the size limits; noise with square above 1e-10; exact eigen-solver and orthogonal factors; real arithmetic", "why_tests_cant": "the claim joins five stages of the update and the whole history before it; a run can only show numbers of one scene", "anchors": ["eskf_vio_backend/src/update/multi_view_vision_update.cpp: Update, SelectGoodFeatures, ConstructMeasurementFunction, UpdateState, ExpandCameraCovariance, UpdateCovariance, ReduceCameraCovariance", "eskf_vio_backend/src/backend/backend.cpp: RunOnce"]}
{"id": "C97", "title": "Attitudes stay unit quaternions in float arithmetic", "statement": "In binary32 arithmetic every attitude in the propagation queue is a finite quaternion whose squared length is within 2^-20 of one, after any number of propagated samples, after repropagation and after the correction of a vision update (also for camera and frame attitudes); the same holds for each step of the attitude estimator. (True with rates and biases of at most 1024 rad/s, corrections of at most 2048 and at most a second between samples; for the estimator 256 rad/s and an acceleration of length at least 1/2. False for arbitrary finite measurements: one finite rate of 2^90 rad/s overflows the squared norm, the attitude becomes the zero quaternion, and every later attitude of the queue is zero.)", "quantifier": "all queues, sequence lengths, float measurements and time stamps within the limits; bit-exact binary32 with rounding to nearest; any libm", "why_tests_cant": "the claim is about the accumulation of rounding errors over sequences of any length and all float inputs", "anchors": ["eskf_vio_backend/src/propagate/sequence_propagator.cpp: Propagate, Repropagate, PropagateMotionNominalState", "eskf_vio_backend/src/update/multi_view_vision_update.cpp: UpdateState", "eskf_vio_backend/src/propagate/attitude_estimate.cpp: Propagate", "eskf_vio_backend/include/utility/math_lib.hpp: DeltaQ"]}
{"id": "C98", "title": "The float motion step is close to the exact one", "statement": "One motion step in binary32 differs from the same step in exact arithmetic by at most 2^-17 per attitude component, 2^-14 m/s in velocity and 2^-12 m in position per axis, and over any number of samples the float attitude departs from the exactly computed one by at most 2^-16 per sample. (True within the ranges of the statement: 64 rad/s, 32 m/s^2, biases of 64 rad/s and 4 m/s^2, 64 m/s, 2048 m, steps of at most 1/64 s. False that the float position follows slow motion: 1 km from the origin, at 1/128 m/s and 256 samples per second, every increment is lost in rounding and the position never moves.)", "quantifier": "all float states and measurements in range, all step lengths up to 1/64 s, all numbers of samples, any libm", "why_tests_cant": "a test compares a few trajectories; the bounds are for all inputs in range and any run length", "anchors": ["eskf_vio_backend/src/propagate/sequence_propagator.cpp: PropagateMotionNominalState, Propagate", "eskf_vio_backend/include/utility/math_lib.hpp: DeltaQ"]}
{"id": "C99", "title": "One image coordinate that is not a number destroys the estimate for good", "statement": "When a feature used by a vision update has one measurement with a NaN coordinate (and its located point is not in the plane of that camera), the update succeeds and leaves the pose, the velocity, both biases, every camera mounting and every frame of the window NaN; whatever is called afterwards, including Reset and a new initialization, mountings and biases stay NaN and so does every newest position and velocity published from a queue of two or more items. A feature whose located point is itself NaN contributes only zero rows. (False that an image with a NaN is refused, reported or recovered from.)", "quantifier": "all states, all configurations, all external solver results and iteration orders, any libm, all later histories", "why_tests_cant": "a test with one bad pixel shows one outcome for one decomposition; the theorem covers every decomposition result, every window and every later history", "anchors": ["eskf_vio_backend/src/update/multi_view_vision_update.cpp: ConstructMeasurementFunction, UpdateState, Update", "eskf_vio_backend/src/backend/backend.cpp: RunOnce, Reset"]}
{"id": "C100", "title": "Angle and length helpers", "statement": "In exact arithmetic ComputeRotationMagnitude of the rotation by an angle a about a unit axis is a (2 pi - a beyond half a turn), i.e. for every unit quaternion the angle between a vector orthogonal to the axis and its image; of a rotation vector d with |d| <= 2 it is 2 asin(|d|/2); ComputeTranslationMagnitude is the Euclidean length in every rotated frame; QuaternionToEuler returns the angles about x, y, z of an attitude composed of these turns in this order about fixed axes, times a factor within 1e-5/pi of 180/pi, whenever the second is inside (-pi/2, pi/2) and the others in (-pi, pi]. (False that the angle of a rotation vector is its length, and that in float arithmetic a normalized quaternion always has an angle: for a half turn the arc cosine can be called below -1.)", "quantifier": "all unit axes, all angles, all unit quaternions, all vectors", "why_tests_cant": "tests compare a few sampled rotations and rarely hit a half turn; the theorem covers every rotation and every quadrant of the arc tangent", "anchors": ["eskf_vio_backend/include/utility/math_lib.hpp: ComputeRotationMagnitude, ComputeTranslationMagnitude, QuaternionToEuler"]}
{"id": "C101", "title": "Covisible features are those reported by both messages", "statement": "After any history that keeps the contract of the front end, GetCovisibleFeatures on two frames of the window lists, each once, exactly the managed features that the messages of both frames report, whatever the iteration order of the hash maps, and the same features when the two frames are exchanged.", "quantifier": "all well-formed histories, all pairs of frames, all iteration orders", "why_tests_cant": "a test inspects a few windows with one iteration order; the theorem covers every history, marginalizations included", "anchors": ["eskf_vio_backend/src/data_manager/vision_data/frame_manager.cpp: GetCovisibleFeatures"]}
{"id": "C102", "title": "Dead reckoning in float arithmetic stays near the exact one", "statement": "Started from states that differ by d (attitude), ev (velocity) and ep (position), the motion that the float program propagates over n samples differs from the motion computed exactly from the same samples by at most d + n/65536, V = ev + n/8192 + 7 n (d + n/65536) m/s and ep + n (V/64 + 1/4096) m per axis, and stays finite, for accelerations up to 32 m/s^2, rates up to 64 rad/s and gaps of at most 1/64 s, whenever the exact run stays inside 64 m/s and 2048 m by these margins.", "quantifier": "all sample sequences in range, of any length, all pairs of starting states, every libm", "why_tests_cant": "the exact trajectory is not available to a test, and the error bound has to hold for every trajectory, not for the recorded ones", "anchors": ["eskf_vio_backend/src/propagate/sequence_propagator.cpp: Propagate, PropagateMotionNominalState"]}
{"id": "C103", "title": "Updated covariances are symmetric bit for bit", "statement": "In float arithmetic the covariance which UpdateState leaves is symmetric bit for bit, whatever the prior covariance, the measurement matrix and the eigenvalue decomposition are (rounding, overflow and NaN included), and after Expand, Reduce and UpdateCovariance the 15 by 15 covariance of the corrected state is still symmetric bit for bit. (False for propagated states: F P F^t + G Q G^t is rounded differently on the two sides of the diagonal.)", "quantifier": "all priors, measurement matrices, decompositions, windows, policies", "why_tests_cant": "a test sees the symmetry of a few matrices up to a tolerance; bitwise symmetry depends on the order of every rounding", "anchors": ["eskf_vio_backend/src/update/multi_view_vision_update.cpp: UpdateState, ExpandCameraCovariance, ReduceCameraCovariance, UpdateCovariance", "eskf_vio_backend/src/propagate/sequence_propagator.cpp: PropagateFullErrorStateCovariance"]}
{"id": "C104", "title": "Answers of the input calls", "statement": "GetIMUMessage and GetFeaturesMessage return true exactly when the message was put into its buffer. (False: both always return true; a features message with observations missing and a message that is not later than the previous one are dropped silently.) Whatever they answer, they change nothing but the end of their own buffer and the times remembered by the loader. RunOnceTest returns false exactly when nothing waits, and removes from the buffers exactly what RunOnce would have used, without any other effect.", "quantifier": "all states of the back end, all messages", "why_tests_cant": "a test would have to enumerate states and look at every member of the back end", "anchors": ["eskf_vio_backend/src/backend/backend.cpp: GetIMUMessage, GetFeaturesMessage, RunOnceTest", "eskf_vio_backend/src/data_manager/data_loader.cpp: PushFeaturesMessage, PushIMUMessage"]}
{"id": "C105", "title": "Propagation does not depend on heading and origin", "statement": "In exact arithmetic, turning the world axes about the vertical and moving the origin commutes with propagation: two queues that describe the same body in two such sets of axes (positions, velocities, attitudes, and covariances of the correspondingly turned errors) still describe the same body after any sequence of samples, repropagations and cuts of the queue, and publish the same state. The attitude estimator, once it has an attitude, likewise. (False for axes with another vertical, as gravity is fixed in the code.)", "quantifier": "all turns that keep gravity, all shifts, queues, sequences of operations, samples and times", "why_tests_cant": "a test compares a few headings; a wrong frame of one block of the process matrices shows up only for particular attitudes and covariances", "anchors": ["eskf_vio_backend/src/propagate/sequence_propagator.cpp: Propagate, Repropagate, ResetOrigin, PropagateMotionNominalState, PropagateFullErrorStateCovariance", "eskf_vio_backend/src/propagate/attitude_estimate.cpp: Propagate"]}
{"id": "C106", "title": "A vision update does not depend on the world axes", "statement": "In exact arithmetic, with exact factors, describing the frames, the feature points and the prior covariance in any other rigid set of world axes (any turn and any shift) changes nothing but the description: the update succeeds in both, the correction is the same error in the new axes, the new covariance is the turned covariance, and the corrected body state, biases, cameras and frames are the same states. The orthogonal factors, eigenvectors and camera orders of the two runs need not agree.", "quantifier": "all turns and shifts, windows, cameras, sets of usable and locatable features, priors, noise above the inversion threshold, factorisations and orders", "why_tests_cant": "a test tries a few poses; a block of a Jacobian or of the correction expressed in the wrong axes is invisible near the identity attitude", "anchors": ["eskf_vio_backend/src/update/multi_view_vision_update.cpp: ConstructMeasurementFunction, UpdateState"]}
{"id": "C107", "title": "Triangulation turns with the world axes but depends on origin and unit of length", "statement": "In exact arithmetic with an exact singular value decomposition: if the smallest right singular vector is unique up to sign, turning all camera poses about the origin turns the point of TrianglateAnalytic and keeps its verdict, whatever signs the two decompositions return. Moving the origin does not commute: for observations whose rays do not meet, the accepted point differs from the moved point for every exact decomposition, because the homogeneous solution is normalised in world coordinates; for the same reason another unit of length gives another point.", "quantifier": "all turns, view lists, observations, previous values and exact decompositions; the dependence on origin and unit for every exact decomposition of one concrete set of views", "why_tests_cant": "with exact synthetic observations every origin gives the same point; the dependence shows up only with noise and is hidden in a tolerance", "anchors": ["eskf_vio_backend/src/geometry/trianglation.cpp: TrianglateAnalytic"]}
{"id": "C108", "title": "Pose refinement does not depend on the world axes", "statement": "In exact arithmetic: if the 3D points and the starting pose are expressed in axes turned by any rotation with the origin moved anywhere, EstimatePose and EstimatePoseKernel return the same verdict after the same number of passes, with the refined pose expressed in those axes, whichever exact solvers of the normal equations the two runs use. Required: the starting attitude is a unit quaternion and the normal equations have a single solution at the poses visited.", "quantifier": "all turns, origins, point lists, observations, starting poses, configurations and exact solvers", "why_tests_cant": "tests start from one world frame, usually aligned with the first camera; a correction applied in the wrong axes still converges there", "anchors": ["eskf_vio_backend/src/geometry/perspective_n_point.cpp: EstimatePose, EstimatePoseKernel"]}
{"id": "C109", "title": "Triangulation and pose refinement do not depend on the order of their data", "statement": "In exact arithmetic: the same views in another order give the same point and verdict in TrianglateAnalytic (exact decompositions, smallest singular vector unique up to sign) and in TrianglateIterative (any solver, same number of steps); the same 3D-2D pairs in another order give the same verdict, pose and number of passes in EstimatePose and EstimatePoseKernel (exact solvers, single solution of the normal equations at the poses visited). In binary32 the iterative point does depend on the order.", "quantifier": "all views, pairs, permutations, starting values, configurations and solvers", "why_tests_cant": "the views come from hash maps, so their order varies between standard libraries; a test sees one order", "anchors": ["eskf_vio_backend/src/geometry/trianglation.cpp: TrianglateAnalytic, TrianglateIterative", "eskf_vio_backend/src/geometry/perspective_n_point.cpp: EstimatePose, EstimatePoseKernel"]}
{"id": "C110", "title": "The poses that pose refinement leaves unchanged are the stationary poses of the reprojection loss", "statement": "In exact arithmetic, with a solver that solves every consistent semidefinite system: if no small change of the starting pose changes the sum of the squared reprojection errors (of the pairs off the camera plane) to first order, and the normal equations have a single solution, EstimatePose returns that pose unchanged after one pass and reports success; conversely a pose that EstimatePose returns unchanged after one pass is stationary in that sense. EstimatePoseKernel has the same property for the sum of the capped errors, if no error is exactly one. (Without a single solution the first part is false.)", "quantifier": "all pairs, starting poses with a unit quaternion, configurations with at least one pass, solvers", "why_tests_cant": "a test with noise-free pairs only sees the stationary poses of zero error; a wrong sign or weight that vanishes with the error passes it", "anchors": ["eskf_vio_backend/src/geometry/perspective_n_point.cpp: EstimatePose, EstimatePoseKernel"]}
