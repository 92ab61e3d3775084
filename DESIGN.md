# Formal model of the ESKF-VIO back end (VIO_Stereo_MSCKF)

Source: `/repo/eskf_vio_backend` (the library). Also modelled: the test programs
`test_eskf_vio_backend.cpp`, `test_trianglate.cpp` and `test_pnp.cpp` in `/repo/apps`. Not modelled: `LogXxx` calls
outside of the modelled functions, the conversion of numbers to text, thread interleavings (the library starts no
threads), allocation failure. The clock of the timer is an arbitrary sequence of signed 64-bit nanosecond counts
(libstdc++'s `system_clock`). A printed line is the list of the values inserted into the stream (`Print.v`). Text parsing is modelled from tokens on (a token is a number or not a number).

## 1. How the code is modelled

* **Functions** are total Gallina functions, one per C++ function, citing file and lines.
  A C++ operation with undefined behaviour (out-of-bounds index, null dereference,
  `front`/`back`/`pop_front` on an empty `deque`) yields a distinct outcome `UB`,
  never a default value.
* **Time stamps** (`fp64`) are IEEE-754 binary64 values, bit exact
  (Flocq `binary_float 53 1024`, round to nearest even, NaN/inf/-0 included; one NaN:
  payloads are not observable in this code). `double -> float` narrowing is modelled too.
* **Scalars** (`Scalar = float` in `typedef.hpp`): every numerical function is written once, generically over
  a record of scalar operations, and instantiated
  - at IEEE binary32 (Flocq) for bit-level facts (NaN behaviour, rounding errors, witnesses),
  - at the standard library reals `R` for the "in exact arithmetic" theorems,
  - at a trivial type for purely discrete witnesses.
  Theorems about control flow (queues, windows, dimensions, memory safety) are proved for
  *every* instance, hence independent of rounding.
  The binary32 instance rounds after every operation, in source order, left to right. Eigen does not
  fix the order of sums in products and reductions and may use fused or vector instructions, so
  bit-level theorems only use operations whose result does not depend on it (or hold for every libm). The
  error bounds of C97 and C98 are proved for the order of the model only; for another order of the sums or
  fused operations they are not proved.
  `1.0 / c` with `c` a float is computed in double and narrowed; the model divides in binary32, which
  gives the same value (double rounding is innocuous for division of binary32 through binary64).
  `libm` functions (sqrt is exact, sin, cos, acos, atan2, exp, log, pow, fabs) are a record of
  arbitrary functions for binary32 and the mathematical functions at `R`.
* **Eigen**: dynamic matrices are a number of rows, a number of columns and an entry function; `block`
  accesses are bounds checked (`UB` outside, as with assertions disabled it is UB in C++);
  `conservativeResize` leaves new entries equal to arbitrary junk. Decompositions
  (SVD, QR, LDLT, symmetric eigen-solver) are oracles (arbitrary functions);
  theorems needing their mathematical specification state it as a named hypothesis.
* **`std::unordered_map` iteration order** and `std::rand` are oracles. `std::map` iterates in key order.
* **Shared pointers to features**: explicit heap `pointer -> feature`; the feature manager and the
  frames hold pointers. Freeing is not modelled (a `shared_ptr` keeps its object alive).
* **Null pointers**: `shared_ptr<FeaturesMessage>` etc. as options; dereferencing a null pointer is `UB`.
  Messages are values (the back end never changes an observation after it was pushed).
* **The dangling read of `PopOneMessage`** (C07) is recorded as an event; `RunOnce` uses the value the
  storage still holds (the deque keeps it in practice), so back-end theorems speak about that case.
* **Configuration**: the file system is a finite map from file names to lists of lines of tokens; memory
  that Eigen leaves uninitialised is an arbitrary function (`junk`); converting a float outside the
  range of `uint32_t` is `UB` (`UbConv`); the static `tempMat` of `ReadConfigParams` and the singleton
  are part of the state.
* **Data files of the test program**: lists of lines of tokens, as for the configuration; uninitialised
  local variables are arguments (`ji`, `jp`, `jc`) of the model.
* **Function-local statics** (`lastTimeStamp`) are process-global state separate from a loader.
* 32-bit ids are integers with explicit `mod 2^32`.

## 2. Trusted base

* The Coq 8.16.1 kernel (with `vm_compute`), checked again with `coqchk`.
* The axioms printed by `Print Assumptions` under each property theorem; the list is in section 5.
* The reading of C++ and Eigen semantics described in section 1 and in the comment of each definition.

## 3. Plan per property

| property | what is modelled | how it is proved |
|---|---|---|
| C01-C03 | `DataLoader` + process statics, bit-exact times | induction over operation lists; C03 refuted by a 3-message history, proved for increasing input |
| C04, C05, C08 | `PopOneMessage` | ghost accepted/delivered lists, induction; case analysis; measure |
| C06 | same | refuted by a concrete buffer |
| C07 | reads recorded as an event | refuted; exact condition proved |
| C09-C11 | `PopPackedMessage` | structural recursion on the IMU queue; reals for the convex combination |
| C12 | statics | refuted with two loaders |
| C13-C16 | `FrameManager` | invariant, induction over operations |
| C17-C19 | `FeatureManager` with heap | invariant, induction; extensional lookup function as specification |
| C20, C21 | feature + frame managers + policies | refinement to the list of messages in the window; gap witness |
| C22 | `IsKeyFrame` | case analysis, independence from the threshold |
| C23-C26 | `AttitudeEstimate` queue | induction over queues; bit-exact witnesses for refutations |
| C27-C29 | `PropagateQueue` | induction over queues |
| C30-C39 | whole `Backend` state machine with solver oracles | invariant over histories |
| C40, C41 | nominal propagation at `R` | algebra, induction over samples |
| C42 | covariance propagation at `R` | quadratic forms |
| C43-C46 | `Expand`, `Reduce`, `UpdateState`, QR compression | generic-size matrix library over `R` |
| C47-C49 | measurement functions | matrix algebra, Coquelicot derivatives, index arithmetic |
| C50 | `SelectGoodFeatures` | list/map reasoning with arbitrary random stream |
| C51-C53 | triangulation | algebra over `R`, loops with explicit counters, arbitrary solver |
| C54-C58 | PnP | loops with counters; non-termination: no fuel suffices |
| C59-C62 | attitude estimator numerics | binary32 NaN propagation; `R` identities |
| C63-C65 | math helpers | algebra |
| C66, C70 | configuration reader on token lists, `ConfigParams` | parser model, witnesses taken from the shipped files |
| C67 | `MARG_SUBNEW` on the window | refuted for two frames |
| C68 | covariance propagation at `R` | linear map as specification, 225 + 180 entries, invariant over queue histories |
| C69 | rotation matrix to quaternion | algebra in each branch |
| C71 | injection of the error vector | pointwise on lists of frames and extrinsics |
| C72-C75 | test program: stream extraction, loading loops, main loop | loops as histories of the back end (C31, C38); algebra over `R` |
| C76, C77 | whole runs of the back end in exact arithmetic | invariants over histories composing C40-C45; the spectral theorem (Jacobi's method with a convergent subsequence) shows that exact solvers exist |
| C78 | one propagation step along curves of states | derivatives (Coquelicot) of the step, compared with the linear map of C68 |
| C79 | measurement of a whole vision update | Jacobian rows against a world motion, projection and compression as linear maps; Householder QR shows that exact factors exist |
| C80 | the attitude estimator over a series of samples | induction over the samples; the integral term as a sum of tilt errors, with a bound that is reached |
| C81 | one initialization attempt on exact data | composition of C51 (triangulation) and C54 (refinement) through the mountings; existence of an exact decomposition from the spectral theorem |
| C82 | the loops of the iterative triangulation at `R` | independence of the solver outside positive definite systems; directional derivatives of the cost; Cramer's rule shows that exact solvers exist |
| C83 | the loops of the pose refinement at `R` | chains of steps; the solver solves every consistent semidefinite system (`solves_psd`, met by the pseudo-inverse built from the spectral theorem); derivatives along a change of the pose |
| C84 | the whole back end on exact data at `R` | zero residuals give a zero correction whatever the gain; invariant of `b_hist` (poses, tracks, queue, attitude estimator). Any QR, eigenvector and random-number oracle; `exact_svd`. New initializations need zero biases because the replayed samples lose the bias twice (C39) and the attitude feedback uses uncorrected accelerations, and a settled attitude estimator because a level start is NaN in floats and a tilted one is not found at once (C59, C60, C62) |
| C85 | loader, attitude queue and propagation queue over histories | suffix invariants of `b_hist`; the samples refused by the gravity gate come before the first item; `x - 0 = x` for every float, so the replay at the first initialization passes on the readings unchanged |
| C86 | the biases of both estimators over histories | case analysis of every operation: samples, replay and failed updates leave the biases, a successful update ends with handing them over |
| C87 | trimming of both queues over histories | head invariant after every image (`ResetOrigin`, `CleanOldItems`, the newest frame survives every marginalization), spread over the queue by the order of the times (C85) and by monotonicity of the rounded differences in double and float |
| C88 | NaN through the whole back end, binary32 | NaN is absorbing in every operation used; invariant of `b_hist`: in each queue everything after the NaN sample is NaN, and a queue without the sample starts with a NaN; `qinv` turns a NaN attitude into the zero quaternion, but the product with the old attitude keeps the NaN; the attitude used by a new initialization is one that the following cleaning keeps |
| C89 | the test programs `test_trianglate` and `test_pnp` (`AppGeometry.v`), with the random stream, decompositions and solvers as parameters | the angles are computed in double and narrowed as in the code; exact views follow from `rotation_quat` and sin^2 + cos^2 = 1; the count of spoiled pairs handles repeated draws; the gradient of both costs along x at the true pose is a sum of terms of one sign; every loop of the three solvers is a chain of the steps in `StepSpec.v` that starts at the identity |
| C90 | `ConstructMeasurementFunction` and `UpdateState` over the reals | `bundle_cost` is built from the rows of the layout specification (C49) and knows nothing of projections; an orthogonal factor keeps sums of squares, its first three rows are solved for the point by back-substitution, the compression changes the cost by a constant, and the Kalman correction completes the square (`kalman_min`) |
| C91 | the same function with two orders, factors and decompositions | both results minimise the same cost (C90), whose minimum is unique; equal costs give equal H^t H, hence equal covariances; for the counterexample two columns of an arbitrary orthogonal factor are swapped |
| C92 | `TickTockTimer` and its calls in `test_pnp` (`Timer.v`); signed overflow of the difference of two counts is undefined behaviour | standard error model of Flocq for the four roundings, composed into 2^-23; monotonicity from `round_le`; sums by induction |
| C93 | `Feature::Information`, `FeatureManager::Information`, `Frame::Information`, `FrameManager::Information` on windows after any history | a reader (`read_heads`, `read_tracks`, `read_frames`) takes the values out of the lines again; the window invariant of C20 and C21 says which they are; the size of a link map is the number of ids in the message |
| C94 | `FeaturesMessage`, `IMUMessage`, `CombinedMessage` and `Configurator::Information` | readers as for C93; injectivity from what is shown under each name; equal numbers of translations and rotations are an invariant of the camera loop |
| C95 | `meas_res`, the Jacobian blocks and columns of `ConstructMeasurementFunction`, and the correction of `UpdateState` | the sum over the columns of C49 is split into its five blocks, C48 gives their derivative along the corrected states of C71 |
| C96 | `RunOnce` with everything below it: window, selection, triangulation, measurement, Kalman step, correction, repropagation, covariance | the invariants of C31, C76 and C77 along the run, then C50, C90, C71, C43 and C44 for the stages; `ParallaxFacts`: the rows of one view annihilate only the ray |
| C97 | `pq_propagate`, `pq_repropagate`, `apply_delta`, `att_propagate`, `delta_q`, `qmul`, `qnormalize` at the binary32 instance | relative error of the squared norm, the root and the quotients (`FloatFacts`, `FloatUnitFacts`); the product with (1, h) has length at least about one; bounds by powers of two exclude overflow |
| C98 | `nominal_step`, `pq_propagate` at the binary32 and the real instance on the same values | error and magnitude of an expression computed with rationals and proved sound (`FloatExpr`), evaluated on the step written with expressions as scalars; normalization by a relative bound; turning keeps distances, so errors add up linearly (`FloatDriftFacts`) |
| C99 | `vision_update`, `run_once`, `b_hist` at the binary32 instance | a NaN written to the residual column survives the later writes, every product with it is NaN, so all of delta_x is NaN; NaN biases make every propagated position NaN, and corrections only add to biases and mountings (`NanImageFacts`) |
| C100 | `rot_magnitude`, `rot_magnitude_q`, `rot_magnitude_v`, `trans_magnitude`, `quat_to_euler`, `rad2deg` at the real instance | half-angle identities reduce the trace to cos a; case analysis of the arc tangent over the quadrants; pi enclosed by the Machin-type series of the standard library (`HelperFacts`) |
| C101 | `covisible` on the windows of `w_run` | membership through the links of both frames, which the window invariant of C20/C21 ties to the messages; distinct ids point to distinct features (`CovisFacts`) |
| C102 | `pq_propagate`, `nominal_step` at binary32 and at the reals | the exact step is Lipschitz in its starting state (rotation matrices of near quaternions, Cauchy-Schwarz), composed with the rounding bound of C98 (`step_near`) by induction over the samples (`DriftFacts`) |
| C103 | `kalman`, `vision_update` at binary32 | binary32 addition commutes, including signed zeros, infinities and NaN; block writes of expansion and reduction leave the first fifteen rows and columns alone (`SymFacts`) |
| C104 | `b_imu`, `b_feat`, `run_once_test` | case analysis of the pushes and of `PopOneMessage` (`ApiFacts`) |
| C105 | `pq_propagate`, `pq_repropagate`, `pq_reset_origin`, `att_propagate` over the reals | the nominal step commutes with the turn; the linear maps of C68 commute with the turn of errors, hence so do their matrices; induction over operations (`YawFacts`) |
| C106 | `measurement`, `kalman`, `apply_delta`, `update_state` over the reals | each Jacobian row applied to a turned error gives the old value, so both stacked systems have the same squared misfit up to a constant (C90); equal misfits give equal updates (C91), and the gain with prior U P U^t is U times the gain for H U; the correction commutes block by block (`RigidFacts`) |
| C107 | `tri_analytic` over the reals | the squared image under the moved system of the turned vector equals the old one, so turned-back minimisers are minimisers; sign cancels in the division (`TriAxesFacts`) |
| C108 | `pnp_estimate`, `pnp_kernel` over the reals | the turned normal equations have the same bilinear and linear forms at turned corrections, so the solution is the turned one; induction over the passes (`PnpAxesFacts`) |
| C109 | `tri_analytic`, `tri_iterative`, `pnp_estimate`, `pnp_kernel` over the reals | sums over permuted lists; a minimiser for one order is one for the other; the solution of the normal equations is unique (`OrderFacts`) |
| C110 | `pnp_estimate`, `pnp_kernel` over the reals | the derivative of the loss along a change of the pose is minus twice the right side of the normal equations; a turn that changes nothing is no turn (`StillFacts`) |

Properties whose user-level statement is false of the code get a theorem `..._refuted`
(a concrete witness) plus the strongest true statement we can prove.

## 4. Statements that are false of the code

| property | what happens | theorem | what holds instead |
|---|---|---|---|
| C03 | `lastTimeStamp` also follows rejected messages, so after one late message an out-of-order one is buffered | `C03_sorted_refuted` | sorted when pushed in order |
| C06 | a features message is delivered after later IMU data | `C06_delivery_order_refuted` | bound by the IMU period |
| C07 | `PopOneMessage` reads an element it has popped | `C07_live_storage_refuted` | exact condition `C07_stale_read_iff` |
| C11 | the two float weights need not sum to one | `C11_convex_refuted` | error bound |
| C12 | the statics are shared by all loaders and survive `Clear` | `C12_isolation_refuted`, `C12_clear_refuted` | |
| C20 | after a gap in a track an observation is attributed to the wrong frame | `C20_gap_refuted` | exact without gaps |
| C24 | a single item later than the request is not found | `C24_get_attitude_finds_refuted` | found with two or more |
| C25 | `CleanOldItems` runs past the end when all items are old | `C25_clean_old_refuted` | exact otherwise |
| C28 | the head after `ResetOrigin` need not be the nearest item, nor near | `C28_*_refuted` | a head not later than the image is within the threshold and no earlier item is nearer |
| C32 | unknown camera id, id twice in one message, id after a gap: undefined behaviour | `C32_*_refuted` | safe under the contract (C31) |
| C34 | after `Reset` with a non-empty propagation queue whose covariance does not have the size that the next initialization expects no update succeeds again | `C34_recovery_refuted`, `C34_stuck` | when the sizes fit a `Reset` is survived (`C84_reset`) |
| C36 | `RunOnce` shadows `res`: a failed initialization or update returns true | `C36_*_refuted` | exact result `C36_result` |
| C39 | after a re-initialization the bias is subtracted a second time | `C39_twice_refuted` | once before the first `Reset` |
| C51 | NaN decomposition counts as success | `C51_finite_refuted` | exact on exact data |
| C52 | a refused point has already been written | `C52_unchanged_refuted` | unchanged in the other refusals |
| C54 | a pose reported by EstimatePoseP3P reprojects the points | `C54_p3p_refuted` | sizes are checked, the guess is returned |
| C55 | RANSAC sampling can loop for ever | `C55_terminates_refuted`, `C55_small_never_ends` | ends for a fair stream |
| C56 | the last model is returned, not the best | `C56_best_refuted` | best on early exit |
| C57 | stale flags; NaN error is an inlier | `C57_*_refuted` | right for a fresh flag vector |
| C59 | a level sensor gives a NaN attitude, for good | `C59_level_start_refuted` | |
| C60 | the initial attitude turns by 2 atan(th/2), not th | `C60_alignment_refuted` | exact angle |
| C61 | the estimator turns by the conjugate increment | `C61_same_rotation_refuted` | conjugate steps |
| C62 | the correction increases the tilt error | `C62_correction_refuted` | for every non-parallel pair |
| C66 | empty file: uninitialised or stale static data; text: 0, hence an infinite period; second line: out-of-bounds write; negative window size: undefined conversion; second read keeps old values | `C66_*_refuted` | exact for missing and complete files |
| C67 | with two frames `MARG_SUBNEW` loses the remaining frame's observations | `C67_subnew_two_frames_refuted` | three or more frames (C20) |
| C73 | the 100 s limit is compared with the shifted time; short lines push stale or uninitialised values | `C73_range_refuted`, `C73_short_refuted` | well-formed files |
| C75 | a pass of the main loop that takes an image alone leaves one sample unprocessed | `C75_all_refuted` | at most one message per image remains |
| C82 | the weights of the iterative triangulation are missing in its cost: with a large residual all steps go uphill and the estimate never moves | `C82_descent_refuted` | residuals up to 0.01 (`C82_descent`), or the cost that the weights belong to (`C82_robust`) |
| C85 | after `Reset` the samples of the attitude queue are propagated a second time behind the old queue, which then goes back in time; a late sample that the loader accepts (C03) is refused by the attitude estimator | `C85_doubled_refuted`, `C85_dropped_refuted` | one session, samples pushed in order |
| C86 | before the first update the attitude estimator does not remove the configured biases, so the first attitude is levelled with biased samples | `C86_start_refuted` | the biases agree from the first successful update on |
| C87 | with a window of one frame, and while initialization keeps failing, `CleanOldItems` is never called and the attitude queue grows with every sample | `C87_one_frame_refuted`, `C87_waiting_refuted` | initialized, window of at least two frames |
| C88 | a NaN sample passes the length test, is reported as success, and makes every later published state NaN, also after a Reset and a new initialization; a level start does the same | `C88_recovers_refuted`; `C88_forever`, `C88_level` give the lasting effect | finite samples that do not lead to 0/0 |
| C89 | the iterative triangulation test prints the result under the name of the set point, so its two numbers always agree | `C89_set_refuted` | the analytic test (`C89_analytic`) |
| C91 | for a point that its views leave open (no baseline) the update depends on the orthogonal factor: a third row is dropped although it carries information on the states | `C91_unlocated_refuted` | points determined by their views (`C91_choice`) |
| C92 | system_clock can be set back: a time is negative; two intervals (16777217 and 16777218 ns) give the same result; readings 2^63 apart overflow | `C92_nonneg_refuted`, `C92_exact_refuted`, `C92_defined_refuted` | a clock that is not set back, readings after 1970 |
| C93 | a feature constructed without observations is printed with a last frame before its first | `C93_last_refuted` | features in a manager (`C93_listing`) |
| C94 | a message whose observations are fewer than its ids is read out of bounds; before ReadConfigParams two cameras are announced, none listed | `C94_short_refuted`, `C94_cameras_refuted` | messages made by the constructor (`C94_made`), configurations that were read (`C94_read`) |
| C95 | the measurement of a point less than 1e-10 in front of the camera has misfit zero whatever its reprojection error | `C95_near_refuted` | points farther away (`C95_misfit`) |
| C97 | one finite rate of 2^90 rad/s overflows the squared norm: the attitude becomes the zero quaternion and stays so | `C97_finite_refuted`; `C97_zero_lasts` gives the lasting effect | rates and biases of at most 1024 rad/s |
| C98 | 1 km from the origin, at 1/128 m/s and 256 Hz, the float position stays the same for any number of samples | `C98_moves_refuted` | each step is within 2^-12 m of the exact one (`C98_step`) |
| C99 | An image with a NaN coordinate is refused, reported, or recovered from by Reset and a new initialization | `C99_recovers_refuted` | all states NaN, RunOnce returns true (`C99_update`, `C99_forever`) |
| C100 | ComputeRotationMagnitude of a rotation vector is its length; a normalized float quaternion always has an angle | `C100_vector_refuted`, `C100_domain_refuted` | 2 asin(norm d/2), and the exact angle in exact arithmetic (`C100_vector`, `C100_angle`) |
| C103 | propagated covariances are symmetric in float arithmetic | `C103_propagated_refuted` | symmetric after each update (`C103_state`) |
| C104 | the answer of an input call tells whether the message was kept | `C104_answer_refuted` | the effect of the calls (`C104_imu`, `C104_features`) |
| C105 | any turn of the world axes commutes with propagation | `C105_tilt_refuted` | turns about the vertical (`C105_queue`) |
| C107 | triangulation does not depend on the origin of the world axes | `C107_shift_refuted` | turns of the axes (`C107_turn`) |
| C107 | scaling the camera positions scales the triangulated point | `C107_scale_refuted` | turns of the axes (`C107_turn`) |
| C109 | the iteratively triangulated point is the same bit for bit in any order of the views | `C109_rounding_refuted` | exact arithmetic (`C109_iterative`) |
| C110 | a stationary pose is returned unchanged whatever the pairs; with too few pairs the normal equations have many solutions and an exact solver may pick a non-zero one | `C110_regular_refuted` | single solution of the normal equations (`C110_estimate`) |
| C70 | reconfiguring a running back end with fewer cameras blocks it | `C70_running_refuted` | new back end |

Other observations recorded while modelling: the process noise matrix holds the configured values, not their
squares (C68); `GetIMUMessage`/`GetFeaturesMessage` of the back end always return true; only
`TrianglateAnalytic` is used by the back end; `SelectGoodFeatures` keys a map by a random float, so two
features can collide and one is lost (C50).

## 5. Axioms

`Print Assumptions` under the property theorems lists only the following, all of the Coq standard library:

* `ClassicalDedekindReals.sig_not_dec`, `ClassicalDedekindReals.sig_forall_dec` (construction of `R`),
* `FunctionalExtensionality.functional_extensionality_dep`,
* `Classical_Prop.classic` (through Flocq, Coquelicot and the classical part of `Reals`).

Theorems about queues, windows and configuration at every scalar type depend on these only through the
Flocq types of the time stamps. `coqchk -o` also reports the opaque module constants of
`Coq.Reals.Rdefinitions` (`RbaseSymbolsImpl`, `RinvImpl`) and of `Coq.ssr.ssrunder`, which are module
fields and not assumptions of any theorem. There is no axiom, parameter or admitted proof in `theories/`.

## 6. Files

Model: `Base`, `Fp`, `Scalar`, `LinAlg`, `Msg`, `MathLib`, `DataLoader`, `FrameManager`, `FeatureManager`,
`Window`, `Attitude`, `Propagator`, `VisionUpdate`, `Triangulate`, `Pnp`, `Backend`, `Config`, `App`, `AppGeometry`, `Timer`, `Print`.
Specifications: `*Spec.v`. Proofs: `*Facts.v`. Concrete states: `*Witness.v`. Property theorems: `Prop*.v`
(each closed by one lemma, with `Print Assumptions` under it and an `Example` meeting its hypotheses).

## 7. Seeded faults

`seeded/LOG.jsonl` has one line per wrong program. Lines with `lemma_failed` come from an automatic run that
stops at the first proof that no longer compiles: that lemma was seen to fail, and `theorems_failed` lists the
property theorems whose proofs use it (references recorded by the compiler), which were not compiled separately.
With `"theorems_by": "reading"` the lemma was likewise seen to fail, but `theorems_failed` names the theorems whose
statements the edited program violates, found by reading the edit.
In the other lines the run went on past the failing proofs. A failing proof shows that the proof depends on the
edited code; that the edited program violates the claim was judged by reading the edit.
