#!/usr/bin/env python3
# Source of properties.jsonl: python3 tools/gen_props.py > properties.jsonl
import json
P=[]
def p(title, statement, quantifier, why, anchors):
    P.append(dict(id="C%02d"%(len(P)+1), title=title, statement=statement, quantifier=quantifier, why_tests_cant=why, anchors=anchors))
B="eskf_vio_backend/src/"
I="eskf_vio_backend/include/"
# ---------------------------------------------------------------- data loader
p("Constant time shift on input",
  "Every message that DataLoader buffers carries exactly (input timestamp) - (-1) in IEEE double arithmetic, whatever was pushed, popped or cleared before: the time origin is never calibrated to the first message, so every published time is the sensor time plus one second (rounded).",
  "all DataLoader histories (push IMU / push features / pop / clear, any order) and all double timestamps",
  "the branch that would calibrate the offset is guarded by a state reachable or not only by considering every history",
  [B+"data_manager/data_loader.cpp: DataLoader::Clear, PushFeaturesMessage, PushIMUMessage", I+"data_manager/data_loader.hpp: DataLoader::DataLoader"])
p("Exact acceptance rule for pushed messages",
  "A pushed message is appended to its buffer if and only if its shifted timestamp is strictly greater (IEEE) than the shifted timestamp of the message pushed immediately before it on the same stream (accepted or not), the first push in the process being compared with its own time minus one; a features message with ids and observes of different lengths is refused (returns false) and changes nothing.",
  "all push sequences, all timestamps including NaN and infinities",
  "the rule depends on the whole prior history of pushes",
  [B+"data_manager/data_loader.cpp: PushFeaturesMessage, PushIMUMessage"])
p("Buffered stream is strictly increasing in time",
  "At every moment the timestamps buffered in each of the two input queues are strictly increasing. (The code only guarantees this when the pushed stream itself is strictly increasing; a single late message lets the next ones in out of order.)",
  "all DataLoader histories",
  "violated only by particular histories; order must hold for all of them",
  [B+"data_manager/data_loader.cpp: PushFeaturesMessage, PushIMUMessage"])
p("FIFO conservation per stream",
  "For any interleaving of pushes and PopOneMessage calls, the messages delivered so far on each stream, followed by the messages still buffered, are exactly the accepted messages in acceptance order: nothing is lost, duplicated or reordered within a stream.",
  "all interleavings of push and PopOneMessage",
  "an invariant over unbounded histories",
  [B+"data_manager/data_loader.cpp: PopOneMessage"])
p("PopOneMessage releases in time order and bundles by the IMU period",
  "PopOneMessage returns false exactly when both buffers are empty. With both non-empty it releases the head of the features buffer if that is not later than the head IMU sample, together with this IMU sample exactly when they are closer than the IMU period, and otherwise only the head IMU sample; with one buffer empty it releases the head of the other one. Hence, for sorted buffers, no released features message is later than any message left behind and no IMU sample released alone is later than any message left behind.",
  "all buffer contents",
  "depends on every pair of queue heads and on rounding of the time difference",
  [B+"data_manager/data_loader.cpp: PopOneMessage"])
p("PopOneMessage never delivers a message after a later one",
  "With sorted buffers, the sequence of delivered messages never goes back in time across the two streams as long as both buffers stay non-empty. (Bundling releases an IMU sample up to one period later than the features message, so a second features message inside this period comes out late.)",
  "all buffer contents and pop sequences",
  "needs all combinations of feature and IMU rates",
  [B+"data_manager/data_loader.cpp: PopOneMessage"])
p("PopOneMessage reads only live storage",
  "PopOneMessage never reads a queue element after popping it. (It does: the features head is bound by reference, popped, and then read again.)",
  "all buffer contents",
  "undefined behaviour that usually looks benign at run time",
  [B+"data_manager/data_loader.cpp: PopOneMessage lines 61-67"])
p("The loader always drains",
  "From any state, calling PopOneMessage repeatedly succeeds until both buffers are empty, after at most (number of buffered features + number of buffered IMU samples) calls, and the delivered messages are all the buffered ones.",
  "all loader states",
  "termination for all sizes",
  [B+"data_manager/data_loader.cpp: PopOneMessage"])
p("PopPackedMessage is memory safe",
  "PopPackedMessage never reads the head or tail of an empty buffer and never returns an empty IMU pack, for any buffer contents and any timestamps, provided the output pointer is not null.",
  "all loader states, including unsorted buffers and NaN",
  "the unguarded while loop is safe only because of an earlier check; must hold for all contents",
  [B+"data_manager/data_loader.cpp: PopPackedMessage"])
p("PopPackedMessage delivers exactly the IMU samples up to the image",
  "On success the pack contains the head features message, all leading IMU samples not later than it, and, when the last of them is more than 1e-6 s early, one extra sample stamped exactly with the features time; what remains buffered is the same boundary sample followed by the untouched later samples, so consecutive packs share their boundary sample and lose nothing. On failure the IMU buffer is unchanged and at most one features message (the one no IMU sample precedes) is dropped.",
  "all loader states with sorted buffers",
  "holds for all numbers of samples and timestamps",
  [B+"data_manager/data_loader.cpp: PopPackedMessage"])
p("The interpolated boundary sample lies between its neighbours",
  "The sample PopPackedMessage synthesises is a convex combination of the last sample before and the first sample after the image: in exact arithmetic each gyro and accel component lies between the two neighbours' components.",
  "all neighbouring samples and image times between them",
  "real-valued bound over all inputs",
  [B+"data_manager/data_loader.cpp: PopPackedMessage lines 117-129"])
p("Loaders are independent of each other and Clear forgets the past",
  "What one DataLoader accepts depends only on what was pushed to it since its last Clear. (False: the acceptance filter is a function-local static shared by every DataLoader of the process and survives Clear and Backend::Reset.)",
  "all pairs of loaders and histories",
  "cross-instance interference needs two-instance histories",
  [B+"data_manager/data_loader.cpp: static lastTimeStamp"])
# ---------------------------------------------------------------- frame manager
p("Frame ids in the window are always consecutive",
  "After any sequence of AddNewFrame and RemoveFrame calls the ids of the frames in the window are consecutive integers (while fewer than 2^32-1 ids were handed out), and AddNewFrame therefore always reports true.",
  "all operation sequences on the frame manager",
  "an inductive invariant over unbounded sequences",
  [B+"data_manager/vision_data/frame_manager.cpp: AddNewFrame, RemoveFrame"])
p("GetFrame finds exactly the frame with the given id",
  "For a window with consecutive ids, GetFrame(id) returns the frame whose id is id when there is one and null otherwise; GetMaxFrameID returns the id of the newest frame, or 0 for an empty window.",
  "all windows and ids",
  "all window contents",
  [B+"data_manager/vision_data/frame_manager.cpp: GetFrame, GetMaxFrameID"])
p("RemoveFrame removes one frame and nothing else",
  "RemoveFrame(k) fails and changes nothing when k is out of range; otherwise it removes exactly the k-th frame, keeps order, poses, times and feature links of all others, renumbers frames after k down by one when k>0, and renumbers nothing when k=0.",
  "all windows and indices",
  "all sizes and positions",
  [B+"data_manager/vision_data/frame_manager.cpp: RemoveFrame"])
p("A new frame inherits the newest pose",
  "AddNewFrame appends the frame at the end; with an empty window it gets id 1, identity pose, zero velocity and no features, otherwise id newest+1 and the newest frame's pose and velocity; existing frames are untouched.",
  "all windows",
  "all windows",
  [B+"data_manager/vision_data/frame_manager.cpp: AddNewFrame, Frame::Initialize"])
# ---------------------------------------------------------------- feature manager
p("Observation count is exact",
  "After any sequence of AddNewFeatures, RemoveByFrameID and RemoveByID, each managed feature's observeNum equals the total number of per-camera observations it stores, and no managed feature has an empty observation list.",
  "all operation sequences on the feature manager",
  "counter consistency over unbounded histories (it sizes the measurement matrix)",
  [B+"data_manager/vision_data/feature_manager.cpp: AddNewFeatures, AddNewObserve, RemoveByFrameID"])
p("Removing a frame removes exactly its observations",
  "RemoveByFrameID(f, false) for the oldest frame, and RemoveByFrameID(f, true) for any frame, change what GetNorm(frame, camera) answers only by forgetting frame f (and, with renumbering, by shifting later frames down by one); a feature disappears exactly when its only observation was in f; positions and statuses of survivors are unchanged.",
  "all feature managers with non-empty tracks, all frame ids, all cameras",
  "all track lengths and positions",
  [B+"data_manager/vision_data/feature_manager.cpp: RemoveByFrameID, Feature::GetNorm"])
p("Feature lookup outside the track is refused",
  "GetNorm answers true exactly when the frame lies inside the track and the camera has an observation there, and then returns that observation; frame ids before the first frame (32-bit wrap-around) are refused.",
  "all features, frames and cameras",
  "wrap-around corner over all 32-bit values",
  [B+"data_manager/vision_data/feature_manager.cpp: Feature::GetNorm, FinalFrameID"])
p("The window stores exactly what the front end reported",
  "For every frame in the window, feature id and camera, the backend's lookup returns exactly the coordinates which the features message of that frame reported (and nothing if it reported none), after any history of messages and marginalizations in which no feature is lost and re-reported under the same id. (Without this condition it is false: the re-reported observation is filed under an earlier frame.)",
  "all histories of features messages and marginalizations",
  "a refinement over unbounded histories; a gap in a track silently shifts observations to the wrong frame",
  [B+"backend/backend.cpp: UpdateFeatureFrameManager, MarginalizeFeatureFrameManager", B+"data_manager/vision_data/feature_manager.cpp"])
p("Frames and feature manager agree",
  "For well-formed contiguous tracks, after any history a frame in the window links a feature if and only if the feature manager holds this feature with a track covering the frame, and both refer to the same feature object.",
  "all histories of features messages and marginalizations",
  "invariant over shared mutable state",
  [B+"backend/backend.cpp: UpdateFeatureFrameManager, MarginalizeFeatureFrameManager"])
p("Keyframe decision rule",
  "For a frame with a predecessor in the window, IsKeyFrame answers true exactly when fewer than the minimum number of features are seen by camera 0 in both frames or the two positions are farther apart than the maximum translation; the oldest frame is always a keyframe, null never is; a frame outside the window is undefined behaviour. The mean-parallax threshold has no influence.",
  "all windows, frames, thresholds",
  "decision over all inputs; independence from a parameter is a for-all statement",
  [B+"data_manager/vision_data/frame_manager.cpp: IsKeyFrame"])
# ---------------------------------------------------------------- IMU queues
p("GetAttitude is safe and returns the nearest sample",
  "GetAttitude never steps outside its queue for any contents; on success the returned attitude belongs to a stored item whose (rounded) time distance to the request is below the threshold, and in a time-sorted queue no other item is closer.",
  "all queues, including unsorted or NaN times, all requests",
  "reverse-iterator arithmetic over all queue shapes",
  [B+"propagate/attitude_estimate.cpp: AttitudeEstimate::GetAttitude"])
p("GetAttitude finds a near sample whenever there is one",
  "If a time-sorted queue holds an item closer to the requested time than the threshold, GetAttitude succeeds. (False for a queue holding a single item later than the request.)",
  "all time-sorted queues",
  "corner case over all queue sizes",
  [B+"propagate/attitude_estimate.cpp: AttitudeEstimate::GetAttitude"])
p("CleanOldItems drops exactly the old prefix and stays inside the queue",
  "CleanOldItems removes exactly the leading items older than the threshold and never pops the queue past its end. (It does pop past the end when every item is old: undefined behaviour.)",
  "all queues, times, thresholds",
  "all queue contents",
  [B+"propagate/attitude_estimate.cpp: AttitudeEstimate::CleanOldItems"])
p("The attitude queue stays ordered",
  "AttitudeEstimate::Propagate refuses (returns false, changes nothing) a sample older than its newest item, and its first sample unless the bias-corrected acceleration norm is within 0.04 of gravity; otherwise it appends exactly one item holding the bias-corrected sample, so the queue's times never decrease (for non-NaN times).",
  "all sample sequences",
  "invariant over unbounded sequences",
  [B+"propagate/attitude_estimate.cpp: AttitudeEstimate::Propagate"])
p("ResetOrigin keeps exactly the items from the update time on",
  "ResetOrigin removes exactly the leading items older than the threshold; it fails exactly when none is left, leaving an empty queue; afterwards the head item is not older than the threshold.",
  "all queues, times, thresholds",
  "all queue contents",
  [B+"propagate/sequence_propagator.cpp: PropagateQueue::ResetOrigin"])
p("The vision update is applied at the state nearest to the image time",
  "After ResetOrigin succeeds the head item is the stored state nearest in time to the image and within the threshold of it. (False: the first item not older than the threshold is taken even when the next one coincides with the image, and a head arbitrarily later than the image is accepted.)",
  "all time-sorted queues",
  "needs all relative timings",
  [B+"propagate/sequence_propagator.cpp: PropagateQueue::ResetOrigin"])
p("Repropagate equals replaying the stored measurements",
  "Repropagate keeps the number, times and measurements of the queue items and leaves exactly the states and covariances obtained by feeding the stored measurements again through Propagate from the head state with the current biases.",
  "all queues and bias values",
  "equality of whole trajectories of any length",
  [B+"propagate/sequence_propagator.cpp: Repropagate, Propagate, PropagateMotionNominalState, PropagateFullErrorStateCovariance"])
# ---------------------------------------------------------------- backend state machine
p("Sliding window stays bounded",
  "After every RunOnce the window holds at most max(1, configured size) frames while the backend is initialized and at most one frame right after a failed initialization or update; once a features message was processed the window is never empty, and every vision update runs with at least two frames.",
  "all histories of messages, RunOnce and Reset calls, all numerical outcomes",
  "invariant over unbounded histories and arbitrary solver results",
  [B+"backend/backend.cpp: RunOnce, MarginalizeFeatureFrameManager", B+"update/multi_view_vision_update.cpp: DecideMargPolicy"])
p("RunOnce never triggers undefined behaviour on well-formed tracks",
  "If features messages have unique ids, known camera ids, non-empty observations and contiguous tracks, no RunOnce call of any history reads out of bounds, dereferences null or pops an empty queue (apart from the dangling read of PopOneMessage), whatever the IMU data, timestamps and solver results.",
  "all histories satisfying the front-end contract, all IMU data, all solver results",
  "memory safety over unbounded histories",
  [B+"backend/backend.cpp: RunOnce", B+"backend/backend_initialize.cpp", B+"update/multi_view_vision_update.cpp"])
p("Malformed tracks are tolerated",
  "A features message with a duplicated id, an id re-appearing after a gap, or an unknown camera id does not crash the backend. (False.)",
  "all features messages",
  "crash only for specific message histories",
  [B+"update/multi_view_vision_update.cpp: TrianglizeMultiFrame", B+"backend/backend_initialize.cpp: TrianglizeMultiView"])
p("Covariance dimensions always match the window",
  "While the backend is initialized, after every RunOnce every queued state's IMU-camera covariance has 6*(cameras + frames) columns and the camera covariance is square of that size, so the dimension check of the vision update never fails in normal operation.",
  "all histories without Reset and without failed update",
  "dimension invariant over unbounded histories",
  [B+"update/multi_view_vision_update.cpp: ConstructCovariance, ExpandCameraCovariance, ReduceCameraCovariance, UpdateCovariance"])
p("The backend recovers after Reset or a failed update",
  "After Reset (or after a failed update) the backend can initialize and run updates again. (False in general: the propagation queue is not emptied, keeps its old covariance dimension, and every later update fails its dimension check for as long as the queue does not run empty.)",
  "all continuations of the history after Reset",
  "a liveness failure over all futures",
  [B+"backend/backend.cpp: Reset, RunOnce", B+"backend/backend_initialize.cpp: InitializePropagator", B+"propagate/sequence_propagator.cpp: Propagate"])
p("Initialization starts propagation from the initial state",
  "After a successful initialization the oldest propagated state is the initial state computed by the initialization. (True when the propagation queue was empty; false otherwise: the new samples are appended to the stale queue and the initial state is ignored.)",
  "all states at initialization",
  "depends on history",
  [B+"backend/backend_initialize.cpp: InitializePropagator"])
p("RunOnce reports failures",
  "RunOnce returns false when initialization or the vision update failed. (False: for any message with features RunOnce returns true; it returns false only when there is no message, or an IMU-only message was refused.)",
  "all states",
  "all branches",
  [B+"backend/backend.cpp: RunOnce"])
p("Published states",
  "PublishPropagateState and PublishUpdateState fail exactly when nothing was propagated yet, and otherwise report the newest respectively the oldest queued state with the current biases; they change nothing.",
  "all states",
  "all states",
  [B+"backend/backend.cpp: PublishPropagateState, PublishUpdateState"])
p("Published propagation time never goes back",
  "If IMU samples are pushed with strictly increasing timestamps, the time reported by successive successful PublishPropagateState calls never decreases, through any sequence of initializations, updates, failures and resets.",
  "all histories with increasing IMU time",
  "monotonicity over unbounded histories",
  [B+"backend/backend.cpp: RunOnce, PublishPropagateState", B+"backend/backend_initialize.cpp: InitializePropagator"])
p("Sensor bias is removed exactly once",
  "Every measurement integrated by the propagator has the current bias subtracted exactly once. (True for samples arriving after initialization; false for the samples replayed at a re-initialization, which were already bias-corrected by the attitude estimator.)",
  "all histories",
  "shows only after a re-initialization with non-zero bias",
  [B+"backend/backend_initialize.cpp: InitializePropagator", B+"propagate/attitude_estimate.cpp: Propagate", B+"propagate/sequence_propagator.cpp: PropagateMotionNominalState"])
# ---------------------------------------------------------------- numerics
p("Attitudes stay unit quaternions",
  "In exact arithmetic, if the head attitude is a unit quaternion, every propagated, repropagated or vision-corrected attitude (IMU, frames, camera extrinsics) is a unit quaternion.",
  "all measurements, biases, time steps, corrections",
  "algebraic identity over reals",
  [B+"propagate/sequence_propagator.cpp: PropagateMotionNominalState", I+"utility/math_lib.hpp: DeltaQ", B+"update/multi_view_vision_update.cpp: UpdateState"])
p("Nominal propagation integrates the motion",
  "In exact arithmetic, a sensor that measures exactly gravity in its own frame and no rotation stays at rest forever (constant velocity, position advancing by velocity times time, attitude fixed), for any number of steps and step sizes; with constant attitude and constant specific force the position and velocity follow the uniformly accelerated motion exactly over each step.",
  "all sequences of samples and step sizes",
  "exact statement over reals and all sequence lengths",
  [B+"propagate/sequence_propagator.cpp: PropagateMotionNominalState"])
p("IMU covariance stays symmetric positive semidefinite under propagation",
  "In exact arithmetic, if the full covariance (IMU, extrinsics, cloned poses) is symmetric positive semidefinite and the noise parameters are non-negative, the full covariance assembled from any propagated or repropagated item is again symmetric positive semidefinite.",
  "all samples, attitudes, time steps, matrix sizes, sequence lengths",
  "real-valued matrix inequality over all sizes",
  [B+"propagate/sequence_propagator.cpp: PropagateFullErrorStateCovariance, InitializeProcessNoiseMatrix"])
p("State augmentation clones the IMU pose",
  "ExpandCameraCovariance yields exactly the covariance of the state extended by a copy of the IMU position and attitude: the new rows and columns equal those of position and attitude, old entries are unchanged, no uninitialised entry survives, and symmetry and positive semidefiniteness are preserved.",
  "all covariance matrices, window sizes, camera counts, and uninitialised memory contents",
  "all sizes and all junk values",
  [B+"update/multi_view_vision_update.cpp: ExpandCameraCovariance"])
p("Marginalization removes exactly the dropped frame's rows and columns",
  "For every policy ReduceCameraCovariance yields the principal submatrix obtained by deleting the six rows and columns of the frame which the frame manager drops under the same policy, so the k-th covariance block always belongs to the k-th frame left; symmetry and positive semidefiniteness are preserved; all block accesses are in bounds.",
  "all symmetric covariances, window sizes, camera counts",
  "index arithmetic over all sizes",
  [B+"update/multi_view_vision_update.cpp: ReduceCameraCovariance", B+"backend/backend.cpp: MarginalizeFeatureFrameManager"])
p("Kalman update contracts the covariance",
  "In exact arithmetic, with a symmetric positive semidefinite prior, positive measurement noise and an exact inverse, the updated covariance is symmetric, positive semidefinite and not larger than the prior (difference positive semidefinite); the correction is K*r, and it vanishes for a zero residual.",
  "all priors, measurement matrices, residuals and sizes",
  "matrix inequality over all sizes",
  [B+"update/multi_view_vision_update.cpp: UpdateState", I+"utility/math_lib.hpp: Inverse"])
p("Measurement compression does not change the update",
  "Compressing the stacked measurement by the QR factorization (when it has more rows than columns) leaves the state correction and the updated covariance unchanged, in exact arithmetic.",
  "all measurement matrices, priors, sizes, orthogonal factors",
  "equality over all sizes",
  [B+"update/multi_view_vision_update.cpp: ConstructMeasurementFunction(void)"])
p("Null-space projection removes the feature position",
  "The projected measurement of a feature does not depend on the error of its position, for any error: rows kept after the QR step annihilate the feature Jacobian, and the number of rows kept is 2*observations-3.",
  "all features, errors, orthogonal factors",
  "for-all over reals",
  [B+"update/multi_view_vision_update.cpp: ConstructMeasurementFunction(feature)"])
p("Measurement Jacobians are the derivatives of the projection",
  "The blocks written into the measurement matrix are the exact partial derivatives of the predicted normalized coordinates with respect to the feature position, the frame position, the frame attitude (right perturbation used by the state update), and the camera extrinsics; the same holds for the PnP and iterative triangulation Jacobians.",
  "all poses, extrinsics and points with non-zero depth",
  "derivative identity over reals",
  [B+"update/multi_view_vision_update.cpp: ConstructMeasurementFunction(feature)", B+"geometry/perspective_n_point.cpp: EstimatePose", B+"geometry/trianglation.cpp: CumputeJacobian"])
p("Measurement matrix layout is in bounds and collision free",
  "For tracks inside the window every block written into the measurement matrices is in bounds, blocks of different states do not overlap, the newest frame maps to the IMU pose columns, frame k to its own clone columns, and exactly 2*observeNum rows are filled.",
  "all windows, camera counts, tracks",
  "index arithmetic over all sizes",
  [B+"update/multi_view_vision_update.cpp: ConstructMeasurementFunction"])
p("Feature selection",
  "The features used for an update are distinct, all linked to the newest frame, all successfully triangulated in this update, at most the configured maximum, and all of them are used when they are not more than the maximum and the random scores do not collide.",
  "all windows, random draws, solver results, iteration orders",
  "for all random outcomes",
  [B+"update/multi_view_vision_update.cpp: SelectGoodFeatures"])
p("Linear triangulation is exact on exact data and rejects points behind cameras",
  "The homogeneous true point lies in the kernel of the linear system built from exact observations, and conversely any kernel vector with non-zero last component dehomogenizes to a point that reprojects exactly; success implies at least two views, a finite point, and non-negative depth in every view; fewer than two views is refused without touching the output.",
  "all poses, points, numbers of views, SVD outcomes",
  "for-all over reals",
  [B+"geometry/trianglation.cpp: TrianglateAnalytic"])
p("Failed triangulation leaves the point unchanged",
  "When TrianglateAnalytic returns false the output point keeps its previous value. (False when the depth test fails: the rejected point is already stored.)",
  "all inputs",
  "specific inputs only",
  [B+"geometry/trianglation.cpp: TrianglateAnalytic"])
p("Iterative triangulation terminates and never worsens the cost",
  "TrianglateIterative performs at most 11 outer times 11 inner iterations, always returns true, and in exact arithmetic its final reprojection cost is not larger than the initial one, for any linear solver behaviour.",
  "all inputs and solver behaviours",
  "termination and monotonicity for all solver results",
  [B+"geometry/trianglation.cpp: TrianglateIterative"])
p("PnP refinement",
  "EstimatePose and EstimatePoseKernel refuse empty or mismatched input without touching the pose, perform at most the configured number of iterations, keep the attitude a unit quaternion, and leave a pose that already reprojects every point exactly unchanged. EstimatePoseP3P reports success exactly for equally many points and image points, at least three, and never touches the pose. (False that EstimatePoseP3P, when it reports success, returns a pose under which the points reproject: it returns the caller's guess.)",
  "all inputs, solver behaviours",
  "for all inputs",
  [B+"geometry/perspective_n_point.cpp: EstimatePose, EstimatePoseKernel, EstimatePoseP3P"])
p("RANSAC terminates",
  "EstimatePoseRANSAC terminates on every non-empty matched input. (False: with one or two points the sampling loop never ends, whatever the random numbers; with three or more it ends as soon as three distinct indices were drawn.)",
  "all inputs and all random streams",
  "non-termination cannot be observed by a test",
  [B+"geometry/perspective_n_point.cpp: EstimatePoseRANSAC"])
p("RANSAC returns its best model",
  "The pose left by EstimatePoseRANSAC has the highest inlier score among the models tried. (False: the last model tried is left in the output.)",
  "all inputs and random streams",
  "depends on the random stream",
  [B+"geometry/perspective_n_point.cpp: EstimatePoseRANSAC"])
p("RANSAC inlier flags",
  "The overload with inlier flags reports, for each point, true exactly when its squared reprojection error is below the threshold. (False when the vector is not empty on entry: stale false flags survive.)",
  "all inputs, all prior contents of the flag vector",
  "depends on caller state",
  [B+"geometry/perspective_n_point.cpp: EstimatePoseRANSAC(isInlier)"])
p("Robust weights",
  "The Cauchy weight used by the PnP kernel lies in (0,1] and does not increase with the residual.",
  "all residuals",
  "real inequality",
  [I+"geometry/perspective_n_point.hpp: Cauchy, Huber"])
# ---------------------------------------------------------------- attitude estimator numerics
p("A level sensor initializes the attitude estimator",
  "When the bias-corrected acceleration equals gravity exactly, the attitude estimator starts with the identity attitude. (False: the rotation axis is 0/0 and in IEEE arithmetic the attitude becomes NaN, and stays NaN for every later sample.)",
  "all later sample sequences",
  "poisoning over all futures",
  [B+"propagate/attitude_estimate.cpp: Propagate"])
p("The initial attitude aligns gravity",
  "The initial attitude rotates the measured gravity direction onto the vertical. (In exact arithmetic the rotation axis is right but the angle is 2*atan(theta/2) instead of theta, so this holds only approximately for small tilt.)",
  "all initial accelerations within the norm gate and not parallel to gravity",
  "real identity",
  [B+"propagate/attitude_estimate.cpp: Propagate"])
p("The attitude estimator and the propagator rotate the same way",
  "With no accelerometer error, one attitude-estimator step turns the attitude by the same rotation as one propagator step with the same gyro samples. (False: the increments are conjugate to each other.)",
  "all gyro samples, time steps",
  "sign convention over all inputs",
  [B+"propagate/attitude_estimate.cpp: Propagate", B+"propagate/sequence_propagator.cpp: PropagateMotionNominalState"])
p("The accelerometer correction reduces the tilt error",
  "With zero rotation rate and zero integral term, one attitude-estimator step brings the predicted gravity direction closer to the measured one. (False: it moves it away whenever the two directions are not parallel.)",
  "all attitudes, accelerations, positive time steps",
  "real inequality over all inputs",
  [B+"propagate/attitude_estimate.cpp: Propagate lines 48-59"])
# ---------------------------------------------------------------- utilities / config
p("Quaternion and skew helper identities",
  "The skew matrix implements the cross product; Qleft(q) and Qright(p) implement quaternion multiplication from the left and right, in both overloads; the transform matrix maps homogeneous points as rotation then translation; rotating by a unit quaternion agrees with its rotation matrix, preserves norms and is undone by the inverse.",
  "all vectors and quaternions",
  "algebraic identities",
  [I+"utility/math_lib.hpp: SkewSymmetricMatrix, Qleft, Qright, TransformMatrix"])
p("Error state packing round-trips",
  "Packing an IMU error state into the 15-vector and unpacking it returns the same position, velocity, rotation and bias errors; index blocks do not overlap and cover the vector.",
  "all error states",
  "all values",
  [B+"propagate/sequence_propagator.cpp: ErrorStateConvert", I+"propagate/imu_state.hpp"])
p("Symmetric inverse",
  "Given an exact eigen-decomposition, Utility::Inverse returns the inverse when all eigenvalues exceed 1e-10, and in general the pseudo-inverse restricted to eigenvalues above 1e-10.",
  "all symmetric matrices and sizes",
  "all sizes",
  [I+"utility/math_lib.hpp: Inverse"])
p("Configuration loading",
  "LoadMatrix returns false and changes nothing when the file cannot be opened, and on success stores exactly the numbers of the file. (False: a file with too few rows or numbers succeeds and leaves entries unspecified, one with too many rows writes out of bounds; ReadConfigParams always returns true and keeps the singleton's previous values for missing files; camera files are read consecutively from 0 up to the first missing one.)",
  "all file contents",
  "all malformed inputs",
  [B+"config/config.cpp: LoadMatrix, ReadConfigParams"])
p("Removing the second-newest frame keeps frames and features aligned",
  "Removing the second-newest frame (MARG_SUBNEW) leaves every remaining frame with exactly its own observations. (False for a window of exactly two frames: RemoveFrame(0) does not renumber while RemoveByFrameID(..., true) does, so the remaining frame loses its observations; with three or more frames it holds. Whether RunOnce can get there depends on DecideMargPolicy, which with two frames classifies the second-newest frame, being the oldest, as a keyframe and chooses MARG_OLDEST.)",
  "all windows of two or more frames",
  "needs the particular window size and policy",
  [B+"backend/backend.cpp: MarginalizeFeatureFrameManager", B+"data_manager/vision_data/frame_manager.cpp: RemoveFrame", B+"data_manager/vision_data/feature_manager.cpp: RemoveByFrameID"])
p("The covariance follows the error-state process model",
  "Each new item of the propagation queue, and each consecutive pair of items after a repropagation, has cov1 = F cov0 F^T + G Q G^T and cross covariance F ecov0, where F maps an error state as p+v dt, v-R(a x th+ba)dt, th-(w x th+bg)dt with biases unchanged, G is the effect of the sensor noises over the step and Q holds the configured noise values; whatever the vision update did to the states in between.",
  "all queues reachable by propagating, repropagating, cutting and rewriting states; all measurements (exact arithmetic)",
  "225 matrix entries over all inputs and histories",
  [B+"propagate/sequence_propagator.cpp: PropagateFullErrorStateCovariance, ResetProcessFunction, InitializeProcessNoiseMatrix"])
p("Camera rotations are read correctly",
  "When the rotation part of a camera's extrinsic file is a rotation matrix, the stored quaternion is a unit quaternion that turns vectors exactly as that matrix does.",
  "all rotation matrices (exact arithmetic)",
  "every branch of the conversion, all rotations",
  [B+"config/config.cpp: ReadConfigParams line 49"])
p("Configuring a back end",
  "ConfigParams leaves the back end ready to start: not initialized, empty window, one extrinsic for each camera file read. In exact arithmetic camera k is mounted as the rigid transformation of file k says, a uniformly moving body that measures the reaction to the configured gravity plus the configured biases is propagated uniformly, the four noise parameters lie on the process noise diagonal in the order of the file, and period, measurement noise, window size and keyframe policy are those of their files. (The start state holds for a new back end; false for a running one, which keeps its window and covariance while the extrinsics are replaced and can then no longer be updated.)",
  "all configurations and back-end states",
  "state left over from earlier runs",
  [B+"backend/backend_config.cpp: ConfigParams"])
p("Each state is corrected by its own part of the error vector",
  "When UpdateState applies a correction vector, the position, velocity, attitude and biases of the IMU state, the pose of every camera and the pose of every frame each move by exactly the three entries in whose columns their Jacobian was written (positions, velocities and biases are added to, attitudes multiplied on the right by (1, theta/2) and normalized), the newest frame becomes the corrected IMU state, and nothing else changes; after a successful Update the newest frame's pose and velocity equal those of the first queued state.",
  "all correction vectors, window sizes, numbers of cameras and scalar types",
  "all window sizes; a wrong offset still gives a plausible trajectory",
  [B+"update/multi_view_vision_update.cpp: UpdateState, UpdateNewestFramePose, Update"])
A="apps/test_eskf_vio_backend.cpp: "
p("The test program has defined behaviour",
  "test_eskf_vio_backend runs without undefined behaviour in the back end whatever its three data files contain (missing, short, non-numeric, unordered), provided at least two cameras are configured; the shipped configuration qualifies.",
  "all contents of the data files, all external solver results, all contents of uninitialised variables",
  "all file contents",
  [A+"main, LoadIMUData, LoadFeaturesData"])
p("The test program loads its data files",
  "From well-formed files the program pushes the samples in file order up to and including the first one later than the limit, counts them, and builds one features message per image in which every point is seen by exactly cameras 0 and 1 under its own index. (False in two ways: the limit of 100 s is compared with the time already shifted by one second, so samples between 99 and 100 s are lost; a line with too few numbers is not skipped but sends the values of the previous line, or uninitialised memory, to the filter.)",
  "all well-formed files",
  "all file contents",
  [A+"LoadIMUData, LoadFeaturesData"])
p("Simulated observations are exact",
  "In exact arithmetic the observations simulated for both cameras have residual zero in the filter's measurement function when the frame has the body pose from which camera 0's pose of that line arises, with the cameras mounted as in the shipped camera files.",
  "all unit attitudes, positions and points (exact arithmetic)",
  "all poses and points",
  [A+"LoadFeaturesData lines 83-112", B+"update/multi_view_vision_update.cpp"])
p("The test program's main loop",
  "With IMU times that never go back the loop makes one pass per loaded sample unless a published position is NaN; saved poses are in order of time, contain no NaN x position and are at most one per pass; afterwards at most as many messages remain as there were images. (False that all loaded data is processed: every image delivered alone uses up one pass, so with images earlier than the IMU data no sample is processed.)",
  "all well-formed files, all back-end behaviours",
  "all file contents and histories",
  [A+"main"])
p("Attitudes are unit quaternions during the whole run",
  "From unit camera rotations, after any sequence of calls, every attitude in the back end (cameras, frames, attitude estimator, initial state, queue) and every published attitude is a unit quaternion, whatever the external solvers return.",
  "all histories of calls, measurements and solver results (exact arithmetic)",
  "all histories; drift of the norm only shows in long runs",
  [B+"backend/backend.cpp: RunOnce", B+"backend/backend_initialize.cpp", B+"update/multi_view_vision_update.cpp: UpdateState"])
p("The covariance stays positive semidefinite during the whole run",
  "With non-negative process noise and an exact eigen-solver, after any sequence of calls the covariance of every queued state together with the extrinsics and cloned poses is symmetric positive semidefinite, through initialization, propagation, updates, augmentation, marginalization, lost tracks and resets.",
  "all histories of calls and measurements (exact arithmetic)",
  "all histories and window sizes; a wrong block only matters many updates later",
  [B+"backend/backend.cpp: RunOnce", B+"update/multi_view_vision_update.cpp: Update", B+"propagate/sequence_propagator.cpp"])
p("The process matrices linearise the nominal step",
  "An error of the state (position, velocity, body-frame rotation, biases) and a noise of the two IMU samples before a propagation step appear after the step in exactly one direction, which agrees with the process model used for the covariance up to second order in the time step; the position error follows the trapezoidal velocity error exactly.",
  "all states, measurements, error directions and gravity vectors (exact arithmetic)",
  "a wrong sign or frame in one block is hidden by noise and only shows as an inconsistent covariance",
  [B+"propagate/sequence_propagator.cpp: PropagateMotionNominalState, PropagateFullErrorStateCovariance"])
p("A vision update does not observe the global pose",
  "With exact QR factors, the stacked, projected and compressed measurement has no component along a common shift and rotation of the whole world; a prior uncertainty in that direction changes neither the correction nor its own variance.",
  "all windows, numbers of cameras, features, observations, shifts and rotations (exact arithmetic)",
  "spurious information about unobservable directions only shows as overconfidence in long runs",
  [B+"update/multi_view_vision_update.cpp: ConstructMeasurementFunction, UpdateState, UpdateCovariance"])
p("The feedback of the attitude estimator",
  "Over any series of samples the attitude estimator follows the mean rate corrected by Kp times the present tilt error plus the carried integral, and the integral grows by exactly Ki times the sum of the tilt errors: at most Ki per sample, and by no smaller bound, since constant tilted accelerations make it grow by Ki at every sample.",
  "all starting states, gravity vectors and series of samples in order of time (exact arithmetic)",
  "integral wind-up depends on the whole history of samples",
  [B+"propagate/attitude_estimate.cpp: Propagate"])
p("Geometry of the initialization",
  "With exact stereo observations and an exact decomposition the first frame is placed at the origin with the nearest estimated attitude, its features are triangulated to the true points, and the second pose is that of the body carrying the camera refined from exact observations of all features seen by camera 0 (at least ten, else the attempt fails); if the refinement finds the true camera pose the second frame is at the true pose and both frames get the displacement over the time as velocity. A sensor at rest is found at rest.",
  "all windows, attitudes, mountings, numbers of cameras, points and poses (exact arithmetic)",
  "a wrong frame, camera or order of the mountings in one of four coordinate changes is hidden when the mounting is close to the identity",
  [B+"backend/backend_initialize.cpp: Initialize, TrianglizeMultiView, EstimateFramePose, InitializePropagator"])
p("The steps of the iterative triangulation",
  "TrianglateIterative hands the linear solver only symmetric positive definite systems; a rejected step multiplies the damping by ten and an accepted one divides it by ten, within fixed bounds; and every step is downhill for the reprojection cost unless the point is stationary. (The last part holds when no residual exceeds 0.01. False otherwise: the system is weighted and the cost is not, so all steps can go uphill and the estimate never moves although it is not optimal; it does hold for the cost that the weights belong to.) The rounds start with the damping 0.001 and end with the first whose last trial is no longer than 5e-7, or with the eleventh. From a stationary point of that cost the loops reject eleven steps and return the very point.",
  "all views, observations, starting points and solvers (exact arithmetic)",
  "all geometries; tests start close to the solution, where no residual is large",
  [B+"geometry/trianglation.cpp: TrianglateIterative, CumputeJacobian"])
p("The steps of the pose refinement",
  "Every pass of EstimatePose is a Gauss-Newton step: the correction minimises the linearised sum of squared reprojection errors of the points off the camera plane, and goes downhill for the sum itself unless the pose is stationary. EstimatePoseKernel does the same for its weights and the loss that grows linearly beyond a residual of one. With an exact solver neither fails, and both stop after the first correction shorter than the epsilon or the allowed number of passes.",
  "all points, observations, starting poses, parameters and solvers of consistent semidefinite systems (exact arithmetic)",
  "a wrong side of the attitude correction or a wrong weight still converges on the data of a test",
  [B+"geometry/perspective_n_point.cpp: EstimatePose, EstimatePoseKernel", I+"geometry/perspective_n_point.hpp: Cauchy"])
p("An estimator at the truth stays at the truth",
  "One update of a moving body whose window and queue are at the truth and whose observations are exact changes no pose, velocity, bias or mounting. An initialized back end whose body rests at the pose it believes in, with the biases it believes in, publishes exactly this pose and zero velocity after any further calls that deliver exact samples and images. Without biases this also holds across any number of resets, lost tracking and new initializations.",
  "all windows, mountings, numbers of cameras, points, attitudes, biases, covariances and series of calls; all eigenvector, QR and random-number results (exact arithmetic, exact singular value decomposition)",
  "a fixed point has to be exact in every place at once; tests accept a drift below a tolerance and cannot cover all configurations and call orders",
  [B+"update/multi_view_vision_update.cpp: Update", B+"backend/backend.cpp: RunOnce", B+"backend/backend_initialize.cpp: Initialize", B+"propagate/sequence_propagator.cpp: Propagate", B+"propagate/attitude_estimate.cpp: Propagate"])
p("No IMU sample is lost, doubled or reordered",
  "For samples pushed in order of time, the attitude queue followed by the samples still waiting in the loader is the end of the stream of accepted samples, also across resets and failures. In a session with one initialization the same holds, reading by reading, for the propagation queue: after a prefix that was already used, every accepted sample occurs exactly once, unchanged and in order; with nothing waiting, the newest published state is that at the last accepted sample. (False after a Reset: samples occur twice and the queue goes back in time. False for samples out of order: one accepted by the loader is dropped.)",
  "all series of calls, messages and configurations; float arithmetic with any libm",
  "the order of samples, images, initialization and updates has unboundedly many interleavings",
  [B+"backend/backend.cpp: RunOnce", B+"backend/backend_initialize.cpp: InitializePropagator", B+"data_manager/data_loader.cpp: PushIMUMessage, PopOneMessage", B+"propagate/attitude_estimate.cpp: Propagate, CleanOldItems", B+"propagate/sequence_propagator.cpp: Propagate, ResetOrigin"])
p("The attitude estimator and the propagator use the same biases",
  "No call changes a bias of the attitude estimator or of the propagator except a RunOnce that uses an image and leaves the back end initialized, and after such a call both have the same biases. Hence they agree whenever the back end is initialized, and they agree or have their initial values otherwise. (False before the first update: the configured biases are not given to the attitude estimator, so the samples that give the first attitude keep them.)",
  "all series of calls, messages, configurations and external results; any arithmetic",
  "a bias that is not handed over shows only as a slow drift, and all interleavings of calls matter",
  [B+"backend/backend.cpp: RunOnce", B+"update/multi_view_vision_update.cpp: Update", B+"propagate/attitude_estimate.cpp: Propagate", B+"backend/backend_config.cpp: ConfigParams"])
p("The queues hold only what is needed since the newest image",
  "After an image that leaves the back end initialized, the newest frame has the time of that image. While the back end is initialized, the propagation queue holds nothing older than one IMU period before the newest frame; together with the waiting samples it is never longer than the number of accepted samples from then on, so memory does not grow with the length of the run. The attitude queue is trimmed likewise. (False for the attitude queue with a window of one frame, and while initialization keeps failing: nothing is removed.)",
  "all series of calls with samples pushed in order of time, configurations with at least two frames, periods and messages; float arithmetic with any libm",
  "a queue that keeps growing is only noticed after hours; the comparison of times in two precisions has to be monotone for all doubles",
  [B+"backend/backend.cpp: RunOnce", B+"propagate/sequence_propagator.cpp: ResetOrigin", B+"propagate/attitude_estimate.cpp: CleanOldItems", B+"data_manager/vision_data/frame_manager.cpp: AddNewFrame, RemoveFrame", B+"update/multi_view_vision_update.cpp: Update"])
p("A NaN sample does no lasting harm",
  "An IMU sample with a NaN component is refused, or at least its effect ends with a Reset and a new initialization. (False: the length test of the attitude estimator is a comparison that is false for NaN, so the sample is accepted and RunOnce reports success. From then on, whatever calls follow, every position and velocity published for the newest sample while initialized is NaN - across images, lost tracking, Resets and new initializations - and so is the newest attitude. The only exception is a queue holding the single item of a new initialization. A first sample exactly along gravity has the same effect without any NaN input.)",
  "all series of calls before and after, configurations, messages and external results; float arithmetic with any libm",
  "tests feed finite samples; that no later series of calls recovers is a statement about all of them",
  [B+"propagate/attitude_estimate.cpp: Propagate, CleanOldItems", B+"propagate/sequence_propagator.cpp: Propagate, Repropagate, ResetOrigin", B+"backend/backend.cpp: RunOnce, Reset", B+"backend/backend_initialize.cpp: Initialize, InitializePropagator", B+"update/multi_view_vision_update.cpp: UpdateState"])
p("The test programs of the geometry module test what they announce",
  "test_trianglate builds six exact views of the point (2, 2, 2) with non-parallel rays, so its analytic test prints this point as the result whenever the decomposition is exact; its iterative test prints the point that was set next to the result. test_pnp accesses no index out of range for any random stream; its observations are exact except at the at most seven drawn indices, where they are not those of the pose; the true pose has a RANSAC score of exactly the undisturbed pairs and RANSAC stops there as soon as it tries it. All three printed poses are reached from the identity at the origin by steps of their own method, none from the result of another. (False for the iterative test: both printed points are the result, so they agree whatever the solver does. And for neither of the two refinements is the true pose a solution: the first pass leaves it, for every random stream.)",
  "all random streams, decompositions, solvers and loop bounds; index safety for every scalar type, geometry in exact arithmetic",
  "the programs are the tests: they print and compare nothing, with one random stream and one platform's arithmetic",
  ["apps/test_trianglate.cpp: TestTrianglateAnalytic, TestTrianglateIterative", "apps/test_pnp.cpp: main", B+"geometry/trianglation.cpp: TrianglateAnalytic, TrianglateIterative", B+"geometry/perspective_n_point.cpp: EstimatePose, EstimatePoseKernel, EstimatePoseRANSAC"])
p("A vision update is the least-squares estimate of states and points together",
  "Take the first-order measurement model of all selected tracks, with a free correction of every point next to the correction x of the states. The correction that the vision update computes, after removing the points by one QR factorization per feature, stacking, compressing by a second QR factorization and the Kalman formula, is the one and only minimum of x^t P^-1 x + (sum of all squared misfits) / noise^2 over states and points together; the new covariance is the curvature there: at dx + P' z the best points cost z^t P' z more than the minimum. P may be singular (x = P y and y^t P y in place of x^t P^-1 x), as it is after a pose has been cloned.",
  "all windows, cameras, extrinsics, numbers of features and observations, orders, positive semidefinite covariances and noises with noise^2 above the threshold of Inverse; exact arithmetic, exact factorizations, tracks whose views determine the point",
  "a test would need an independent bundle adjustment and could only compare samples up to rounding",
  [B+"update/multi_view_vision_update.cpp: ConstructMeasurementFunction, UpdateState"])
p("The result of a vision update does not depend on orders and factorizations",
  "Two vision updates with the same features in any two orders, with cameras visited in any two orders, with any two exact orthogonal factors and any two exact eigen-decompositions compute the same correction and the same covariance. (False for a feature that its views do not determine, as two views from the same place: three rows are dropped although only two belong to the point, and which information is lost depends on the orthogonal factor.)",
  "all windows, cameras, features, orders, factors and decompositions; exact arithmetic, tracks whose views determine the point",
  "the iteration order of the hash maps and the signs chosen by the linear algebra library are fixed in any one build",
  [B+"update/multi_view_vision_update.cpp: ConstructMeasurementFunction, UpdateState"])
p("The timer measures the time between its calls",
  "Every call of TickTock returns a finite number of milliseconds since the previous call (the first: since the construction) with a relative error of at most 2^-23; the results of a run add up to the time it took with the same relative error; the sign of a result tells whether the clock went forward, and a longer interval never shows as a shorter time. test_pnp prints the times of its three solver calls without its own printing. (False: that a time is never negative, since system_clock can be set back; that different intervals give different results; that a call is defined for any two 64-bit readings.)",
  "all sequences of clock readings from 1970 to 2262 (non-decreasing for the sum), any number of calls; bit-exact double and float arithmetic",
  "a test cannot set the clock; the rounding of the count, the division, the product and the narrowing must be bounded for all 2^63 intervals",
  [B+"utility/tick_tock.cpp: TickTockTimer, TickTock", "apps/test_pnp.cpp: main"])
p("The printed listing of the window is the window",
  "After any history within the contract of the front end, FeatureManager::Information prints exactly the observations in the messages of the frames in the window, each once, under the right feature, frame and camera; its headers name every feature of these messages once, with exactly the range of frames that observe it; the number in a header is the number of observations below it modulo 2^32. FrameManager::Information prints the frames in order, with the time and the number of features of their messages. (False for a feature constructed without observations: its last frame is before its first.)",
  "all histories of messages and marginalizations, iteration orders of the maps and scalar types",
  "the listing depends on the whole history and on the iteration order of the hash maps",
  [B+"data_manager/vision_data/feature_manager.cpp: Information", B+"data_manager/vision_data/frame_manager.cpp: Information"])
p("The printed messages and configuration are complete and correctly named",
  "Printing a features message is defined exactly if it has an observation for every id, which the constructor ensures; the lines then contain exactly its observations, and those of a combined message its IMU samples in order. The listing of the configuration shows every parameter exactly once under its name and every camera with its own translation and rotation, so that it determines the configuration; after ReadConfigParams it is defined whatever the files were, and the printed number of cameras is the number of cameras listed modulo 2^32. (False: that any message can be printed; before a configuration is read two cameras are announced and none is listed.)",
  "all messages, configurations, directories of files and scalar types",
  "that no two parameters are exchanged or shown twice is a statement about all values; the index into the observations is not checked by the code",
  [B+"data_manager/data_typedef.cpp: Information", B+"config/config.cpp: Information, ReadConfigParams"])
p("What a vision update minimises is the reprojection error of the corrected state",
  "The misfit of a measurement in the problem that a vision update solves (C90) is the first-order expansion of the reprojection error - measured minus predicted normalized coordinates - in the state after the correction of C71 and with the point moved: equal to it for the zero correction, affine along every line of corrections, and with the derivative of the reprojection error of the corrected states. The sign of the residual, the columns of the Jacobians and the injection of the error vector therefore fit together. (False for a point less than 1e-10 in front of the camera, whose measurement is replaced by zeros.)",
  "all windows and cameras with unit attitudes, all points farther than the threshold from the image plane, image points, corrections and movements of the point, real arithmetic",
  "a wrong sign or column still produces plausible numbers; the claim is a derivative in a space of any dimension",
  [B+"update/multi_view_vision_update.cpp: ConstructMeasurementFunction, UpdateState"])
p("A vision update of a run, from the messages to the new states",
  "In every run of a configured back end with exact factorizations, a successful vision update for a features message does the following. The newest frame takes the propagated state of the image time. The tracks used are distinct, at most the configured number, reported by the message and triangulated; all such tracks are used when they fit and their random scores differ. The measurements of a used track are exactly what the messages of the window reported for it: frame, camera and image point. If every used point is seen in two different directions, the correction is the unique joint least-squares estimate of states and points from the prior covariance and these measurements, and the new covariance is its curvature. All states move by that correction; the queue starts at the corrected state and follows from it by the same samples with the corrected biases; the stored covariance is the new one after cloning the newest pose and dropping the poses of the frame that leaves the window. Two different directions are exactly what fixes a point.",
  "all runs of a new back end: any messages with good tracks, calls, orders, random scores and configurations within the size limits; noise with square above 1e-10; exact eigen-solver and orthogonal factors; real arithmetic",
  "the claim joins five stages of the update and the whole history before it; a run can only show numbers of one scene",
  [B+"update/multi_view_vision_update.cpp: Update, SelectGoodFeatures, ConstructMeasurementFunction, UpdateState, ExpandCameraCovariance, UpdateCovariance, ReduceCameraCovariance", B+"backend/backend.cpp: RunOnce"])
p("Attitudes stay unit quaternions in float arithmetic",
  "In binary32 arithmetic every attitude in the propagation queue is a finite quaternion whose squared length is within 2^-20 of one, after any number of propagated samples, after repropagation and after the correction of a vision update (also for camera and frame attitudes); the same holds for each step of the attitude estimator. (True with rates and biases of at most 1024 rad/s, corrections of at most 2048 and at most a second between samples; for the estimator 256 rad/s and an acceleration of length at least 1/2. False for arbitrary finite measurements: one finite rate of 2^90 rad/s overflows the squared norm, the attitude becomes the zero quaternion, and every later attitude of the queue is zero.)",
  "all queues, sequence lengths, float measurements and time stamps within the limits; bit-exact binary32 with rounding to nearest; any libm",
  "the claim is about the accumulation of rounding errors over sequences of any length and all float inputs",
  [B+"propagate/sequence_propagator.cpp: Propagate, Repropagate, PropagateMotionNominalState", B+"update/multi_view_vision_update.cpp: UpdateState", B+"propagate/attitude_estimate.cpp: Propagate", I+"utility/math_lib.hpp: DeltaQ"])
p("The float motion step is close to the exact one",
  "One motion step in binary32 differs from the same step in exact arithmetic by at most 2^-17 per attitude component, 2^-14 m/s in velocity and 2^-12 m in position per axis, and over any number of samples the float attitude departs from the exactly computed one by at most 2^-16 per sample. (True within the ranges of the statement: 64 rad/s, 32 m/s^2, biases of 64 rad/s and 4 m/s^2, 64 m/s, 2048 m, steps of at most 1/64 s. False that the float position follows slow motion: 1 km from the origin, at 1/128 m/s and 256 samples per second, every increment is lost in rounding and the position never moves.)",
  "all float states and measurements in range, all step lengths up to 1/64 s, all numbers of samples, any libm",
  "a test compares a few trajectories; the bounds are for all inputs in range and any run length",
  [B+"propagate/sequence_propagator.cpp: PropagateMotionNominalState, Propagate", I+"utility/math_lib.hpp: DeltaQ"])
p("One image coordinate that is not a number destroys the estimate for good",
  "When a feature used by a vision update has one measurement with a NaN coordinate (and its located point is not in the plane of that camera), the update succeeds and leaves the pose, the velocity, both biases, every camera mounting and every frame of the window NaN; whatever is called afterwards, including Reset and a new initialization, mountings and biases stay NaN and so does every newest position and velocity published from a queue of two or more items. A feature whose located point is itself NaN contributes only zero rows. (False that an image with a NaN is refused, reported or recovered from.)",
  "all states, all configurations, all external solver results and iteration orders, any libm, all later histories",
  "a test with one bad pixel shows one outcome for one decomposition; the theorem covers every decomposition result, every window and every later history",
  [B+"update/multi_view_vision_update.cpp: ConstructMeasurementFunction, UpdateState, Update", B+"backend/backend.cpp: RunOnce, Reset"])
p("Angle and length helpers",
  "In exact arithmetic ComputeRotationMagnitude of the rotation by an angle a about a unit axis is a (2 pi - a beyond half a turn), i.e. for every unit quaternion the angle between a vector orthogonal to the axis and its image; of a rotation vector d with |d| <= 2 it is 2 asin(|d|/2); ComputeTranslationMagnitude is the Euclidean length in every rotated frame; QuaternionToEuler returns the angles about x, y, z of an attitude composed of these turns in this order about fixed axes, times a factor within 1e-5/pi of 180/pi, whenever the second is inside (-pi/2, pi/2) and the others in (-pi, pi]. (False that the angle of a rotation vector is its length, and that in float arithmetic a normalized quaternion always has an angle: for a half turn the arc cosine can be called below -1.)",
  "all unit axes, all angles, all unit quaternions, all vectors",
  "tests compare a few sampled rotations and rarely hit a half turn; the theorem covers every rotation and every quadrant of the arc tangent",
  [I+"utility/math_lib.hpp: ComputeRotationMagnitude, ComputeTranslationMagnitude, QuaternionToEuler"])
p("Covisible features are those reported by both messages",
  "After any history that keeps the contract of the front end, GetCovisibleFeatures on two frames of the window lists, each once, exactly the managed features that the messages of both frames report, whatever the iteration order of the hash maps, and the same features when the two frames are exchanged.",
  "all well-formed histories, all pairs of frames, all iteration orders",
  "a test inspects a few windows with one iteration order; the theorem covers every history, marginalizations included",
  [B+"data_manager/vision_data/frame_manager.cpp: GetCovisibleFeatures"])
p("Dead reckoning in float arithmetic stays near the exact one",
  "Started from states that differ by d (attitude), ev (velocity) and ep (position), the motion that the float program propagates over n samples differs from the motion computed exactly from the same samples by at most d + n/65536, V = ev + n/8192 + 7 n (d + n/65536) m/s and ep + n (V/64 + 1/4096) m per axis, and stays finite, for accelerations up to 32 m/s^2, rates up to 64 rad/s and gaps of at most 1/64 s, whenever the exact run stays inside 64 m/s and 2048 m by these margins.",
  "all sample sequences in range, of any length, all pairs of starting states, every libm",
  "the exact trajectory is not available to a test, and the error bound has to hold for every trajectory, not for the recorded ones",
  [B+"propagate/sequence_propagator.cpp: Propagate, PropagateMotionNominalState"])
p("Updated covariances are symmetric bit for bit",
  "In float arithmetic the covariance which UpdateState leaves is symmetric bit for bit, whatever the prior covariance, the measurement matrix and the eigenvalue decomposition are (rounding, overflow and NaN included), and after Expand, Reduce and UpdateCovariance the 15 by 15 covariance of the corrected state is still symmetric bit for bit. (False for propagated states: F P F^t + G Q G^t is rounded differently on the two sides of the diagonal.)",
  "all priors, measurement matrices, decompositions, windows, policies",
  "a test sees the symmetry of a few matrices up to a tolerance; bitwise symmetry depends on the order of every rounding",
  [B+"update/multi_view_vision_update.cpp: UpdateState, ExpandCameraCovariance, ReduceCameraCovariance, UpdateCovariance", B+"propagate/sequence_propagator.cpp: PropagateFullErrorStateCovariance"])
p("Answers of the input calls",
  "GetIMUMessage and GetFeaturesMessage return true exactly when the message was put into its buffer. (False: both always return true; a features message with observations missing and a message that is not later than the previous one are dropped silently.) Whatever they answer, they change nothing but the end of their own buffer and the times remembered by the loader. RunOnceTest returns false exactly when nothing waits, and removes from the buffers exactly what RunOnce would have used, without any other effect.",
  "all states of the back end, all messages",
  "a test would have to enumerate states and look at every member of the back end",
  [B+"backend/backend.cpp: GetIMUMessage, GetFeaturesMessage, RunOnceTest", B+"data_manager/data_loader.cpp: PushFeaturesMessage, PushIMUMessage"])
p("Propagation does not depend on heading and origin",
  "In exact arithmetic, turning the world axes about the vertical and moving the origin commutes with propagation: two queues that describe the same body in two such sets of axes (positions, velocities, attitudes, and covariances of the correspondingly turned errors) still describe the same body after any sequence of samples, repropagations and cuts of the queue, and publish the same state. The attitude estimator, once it has an attitude, likewise. (False for axes with another vertical, as gravity is fixed in the code.)",
  "all turns that keep gravity, all shifts, queues, sequences of operations, samples and times",
  "a test compares a few headings; a wrong frame of one block of the process matrices shows up only for particular attitudes and covariances",
  [B+"propagate/sequence_propagator.cpp: Propagate, Repropagate, ResetOrigin, PropagateMotionNominalState, PropagateFullErrorStateCovariance", B+"propagate/attitude_estimate.cpp: Propagate"])
p("A vision update does not depend on the world axes",
  "In exact arithmetic, with exact factors, describing the frames, the feature points and the prior covariance in any other rigid set of world axes (any turn and any shift) changes nothing but the description: the update succeeds in both, the correction is the same error in the new axes, the new covariance is the turned covariance, and the corrected body state, biases, cameras and frames are the same states. The orthogonal factors, eigenvectors and camera orders of the two runs need not agree.",
  "all turns and shifts, windows, cameras, sets of usable and locatable features, priors, noise above the inversion threshold, factorisations and orders",
  "a test tries a few poses; a block of a Jacobian or of the correction expressed in the wrong axes is invisible near the identity attitude",
  [B+"update/multi_view_vision_update.cpp: ConstructMeasurementFunction, UpdateState"])
p("Triangulation turns with the world axes but depends on origin and unit of length",
  "In exact arithmetic with an exact singular value decomposition: if the smallest right singular vector is unique up to sign, turning all camera poses about the origin turns the point of TrianglateAnalytic and keeps its verdict, whatever signs the two decompositions return. Moving the origin does not commute: for observations whose rays do not meet, the accepted point differs from the moved point for every exact decomposition, because the homogeneous solution is normalised in world coordinates; for the same reason another unit of length gives another point.",
  "all turns, view lists, observations, previous values and exact decompositions; the dependence on origin and unit for every exact decomposition of one concrete set of views",
  "with exact synthetic observations every origin gives the same point; the dependence shows up only with noise and is hidden in a tolerance",
  [B+"geometry/trianglation.cpp: TrianglateAnalytic"])
p("Pose refinement does not depend on the world axes",
  "In exact arithmetic: if the 3D points and the starting pose are expressed in axes turned by any rotation with the origin moved anywhere, EstimatePose and EstimatePoseKernel return the same verdict after the same number of passes, with the refined pose expressed in those axes, whichever exact solvers of the normal equations the two runs use. Required: the starting attitude is a unit quaternion and the normal equations have a single solution at the poses visited.",
  "all turns, origins, point lists, observations, starting poses, configurations and exact solvers",
  "tests start from one world frame, usually aligned with the first camera; a correction applied in the wrong axes still converges there",
  [B+"geometry/perspective_n_point.cpp: EstimatePose, EstimatePoseKernel"])
p("Triangulation and pose refinement do not depend on the order of their data",
  "In exact arithmetic: the same views in another order give the same point and verdict in TrianglateAnalytic (exact decompositions, smallest singular vector unique up to sign) and in TrianglateIterative (any solver, same number of steps); the same 3D-2D pairs in another order give the same verdict, pose and number of passes in EstimatePose and EstimatePoseKernel (exact solvers, single solution of the normal equations at the poses visited). In binary32 the iterative point does depend on the order.",
  "all views, pairs, permutations, starting values, configurations and solvers",
  "the views come from hash maps, so their order varies between standard libraries; a test sees one order",
  [B+"geometry/trianglation.cpp: TrianglateAnalytic, TrianglateIterative", B+"geometry/perspective_n_point.cpp: EstimatePose, EstimatePoseKernel"])
p("The poses that pose refinement leaves unchanged are the stationary poses of the reprojection loss",
  "In exact arithmetic, with a solver that solves every consistent semidefinite system: if no small change of the starting pose changes the sum of the squared reprojection errors (of the pairs off the camera plane) to first order, and the normal equations have a single solution, EstimatePose returns that pose unchanged after one pass and reports success; conversely a pose that EstimatePose returns unchanged after one pass is stationary in that sense. EstimatePoseKernel has the same property for the sum of the capped errors, if no error is exactly one. (Without a single solution the first part is false.)",
  "all pairs, starting poses with a unit quaternion, configurations with at least one pass, solvers",
  "a test with noise-free pairs only sees the stationary poses of zero error; a wrong sign or weight that vanishes with the error passes it",
  [B+"geometry/perspective_n_point.cpp: EstimatePose, EstimatePoseKernel"])
for d in P: print(json.dumps(d))
