{
 "C01": "all histories of loader calls, IEEE double times",
 "C02": "exact rule, including the shared previous-time static",
 "C03": "false as stated: refuted by a late message, proved when the pushed times never go back",
 "C04": "all interleavings of pushes and PopOneMessage; companion theorem: such histories always run",
 "C05": "decision rule for all buffers, order for sorted buffers",
 "C06": "false as stated: refuted; the only exceptions are characterised",
 "C07": "false as stated: refuted; exact condition for the dangling read proved",
 "C08": "all loader states",
 "C09": "all reachable states",
 "C10": "all reachable states, sorted or not",
 "C11": "false as stated (float weights): refuted; proved up to 2^-22 relative error",
 "C12": "false as stated: refuted for two loaders and for Clear",
 "C13": "all operation sequences with fewer than 2^32-1 added frames",
 "C14": "all windows with consecutive ids (C13)",
 "C15": "all windows and positions",
 "C16": "all windows",
 "C17": "all operation sequences, duplicates allowed; also proves that no such sequence is undefined behaviour",
 "C18": "both variants; tracks below 2^32 frames",
 "C19": "tracks below 2^32 frames",
 "C20": "all gap-free histories; refuted with a gap",
 "C21": "all gap-free histories",
 "C22": "all windows with live links; links are proved live for all gap-free histories",
 "C23": "all queues, bit-exact times",
 "C24": "false for a single item later than the request: refuted; proved in every other case",
 "C25": "false as stated: pops past the end when every item is old; exact behaviour proved",
 "C26": "all states and samples",
 "C27": "all queues",
 "C28": "false as stated: refuted twice; what holds for a head not later than the image is proved",
 "C29": "all queues, any scalar arithmetic",
 "C30": "all histories, all numerical outcomes; window size below 2^32-1",
 "C31": "all histories under the front-end contract, any scalar type and solver results; fewer than 2^32-2 features messages",
 "C32": "false as stated: refuted for an unknown camera, a duplicated id and an id re-appearing after a gap",
 "C33": "all histories without Reset, failed updates included",
 "C34": "false as stated: refuted by Reset with a full window; such a state is proved stuck while the queue is not empty; a failed update leaves the queue empty (C33)",
 "C35": "true for an empty queue, and with a stale queue the head is proved unchanged: both branches proved",
 "C36": "false as stated: refuted twice; exact return value proved",
 "C37": "all states",
 "C38": "all histories with non-decreasing sample times, Reset and failures included",
 "C39": "false as stated: refuted by a re-initialization; proved while the back end stays initialized (floats) and per integration step (reals)",
 "C40": "exact arithmetic; all queues, corrections, solver results and policies",
 "C41": "exact arithmetic with the rounded float time steps",
 "C42": "all queues and sample sequences; Q from non-negative noise parameters",
 "C43": "all sizes and junk; symmetric prior for the exact-clone statement (the code copies rows then their transpose)",
 "C44": "all sizes and policies; the kept frames are shown to be those of the frame manager",
 "C45": "exact arithmetic and exact eigen-decomposition; optimality of the gain when noise^2 > 1e-10",
 "C46": "exact arithmetic; any orthogonal factor and exact eigen-decompositions",
 "C47": "exact arithmetic; any orthogonal factor that triangularizes the feature columns",
 "C48": "exact arithmetic; derivatives along every joint perturbation in the error coordinates of the update",
 "C49": "any scalars; tracks inside a window with consecutive ids (C13) and known camera ids",
 "C50": "any scalars, solver results, random numbers and iteration orders",
 "C51": "Exactness proved over the reals for any correct SVD; 'finite point' is refuted for float arithmetic (NaN decomposition).",
 "C52": "False as stated (depth failure stores the point): refuted, and every other failure proved to leave the output alone.",
 "C53": "Termination for every scalar type and solver; cost monotone in exact arithmetic (initial depth non-zero), and for the computed cost in float arithmetic.",
 "C54": "Fixed point needs a solver answering 0 to a zero right-hand side; the rest holds for every solver.",
 "C55": "False as stated for one or two points: refuted; termination proved for streams in which three indices keep appearing.",
 "C56": "False as stated (last model is left): refuted; proved to be the best on the early exit.",
 "C57": "False with a non-empty flag vector and for NaN errors: refuted; proved for a fresh vector in exact arithmetic.",
 "C58": "Real analysis of the Cauchy (and Huber) weight with parameter 1, the only one used.",
 "C59": "false as stated: refuted for every finite gravity value, every libm and every later call sequence",
 "C60": "false as stated: refuted; exact angle and residual bound theta^3/12 proved",
 "C61": "false as stated: refuted; exact relation proved",
 "C62": "false as stated: refuted for every non-parallel state and step up to 2/(Kp+Ki) seconds",
 "C63": "exact arithmetic",
 "C64": "all error states; every entry is written",
 "C65": "exact arithmetic and exact eigen-decomposition",
 "C66": "a missing file, a complete file, any file line by line, and which floats convert to a count are proved; false as stated for empty, short, over-long and non-numeric files and for a second read: refuted",
 "C67": "false as stated for two frames: refuted; for three or more frames it is part of C20",
 "C68": "exact arithmetic; Q holds the configured values themselves, not their squares",
 "C69": "exact arithmetic; proved for every branch of the conversion",
 "C70": "proved for a new back end, with the meaning of every file; false as stated for a running one: refuted",
 "C71": "proved for every scalar type; the column numbers are those of C49",
 "C72": "proved for every content of the files; the back end starts from any configuration with two cameras or more",
 "C73": "proved for well-formed files, and the effect of any line; false as stated for the 100 s limit and for short lines: refuted",
 "C74": "exact arithmetic",
 "C75": "proved for samples in order of time; false that everything loaded is processed: refuted",
 "C76": "exact arithmetic; no assumption on the solvers",
 "C77": "exact arithmetic, exact eigen-solver (its existence is proved by Jacobi's method)",
 "C78": "exact arithmetic; derivatives along arbitrary curves of states",
 "C79": "exact arithmetic, exact QR factors (their existence is proved by Householder reflections) and eigen-solver",
 "C80": "exact arithmetic; any number of samples",
 "C81": "exact arithmetic; exact singular value decomposition (existence proved); rest case with a solver that maps zero to zero",
 "C82": "exact arithmetic; descent proved for residuals up to 0.01f, refuted beyond; proved for the weighted cost without a bound",
 "C83": "exact arithmetic; the solver is assumed to solve consistent positive semidefinite systems; no claim about the loss when a used residual is exactly 1",
 "C84": "exact arithmetic; exact singular value decomposition; runs with new initializations start from a settled attitude estimator and zero biases (C39, C60, C62 show why)",
 "C85": "bit-exact floats; RunOnceTest (which drops a message) is excluded; the queue statement is for histories with one initialization",
 "C86": "any arithmetic; the configured biases reach the attitude estimator only with the first update (refuted before)",
 "C87": "bit-exact times; samples pushed in order; the queue statement is for histories with one initialization and without RunOnceTest, the attitude statement for windows of at least two frames",
 "C88": "IEEE binary32 with any libm; the user-level claim is refuted, the lasting effect is proved for every later history; one-item queues after a new initialization are excepted",
 "C89": "sizes, indices and termination for every scalar type; the geometry over the reals with sin and cos exact; the printed set point of the iterative test is refuted",
 "C90": "over the reals with exact QR and eigen-decompositions; the Jacobians are those of C48; a point must be determined by its views",
 "C91": "over the reals with exact factorizations; the statement without the condition on the points is refuted",
 "C92": "bit-exact binary64/binary32; the clock is an arbitrary sequence of int64 nanosecond counts",
 "C93": "a line is the list of the inserted values; the text of a number is not modelled",
 "C94": "a line is the list of the inserted values; the text of a number is not modelled",
 "C95": "over the real numbers",
 "C96": "over the real numbers",
 "C97": "bit-exact binary32 within stated ranges; the statement for all finite measurements is refuted",
 "C98": "error bounds for the sums in the order of the source; range limits in the statement; a lost-motion witness is proved",
 "C99": "IEEE NaN rules only; the projection is the dense product with Q, while the library applies reflections, which spread a NaN in the same way unless a reflection is the identity",
 "C100": "Exact arithmetic for the positive parts; the float refutations assume only that acos answers NaN below -1.",
 "C101": "The function has no caller in the repository.",
 "C102": "The bound needs only the exact run to be in range; that the float run stays in range is part of the conclusion.",
 "C103": "Float arithmetic; for the state after the update at least one feature must have been measured.",
 "C104": "the effect of the calls and RunOnceTest are proved; false as stated for the answers: refuted",
 "C105": "exact arithmetic, unit attitudes, process noise as configured; false as stated for a tilted frame: refuted",
 "C106": "exact arithmetic, unit attitudes; the points are given (algebraic triangulation is not part of the statement)",
 "C107": "exact arithmetic; independence of origin and unit of length is false: refuted",
 "C108": "exact arithmetic; single solution of the normal equations required at each pose visited; RANSAC not covered",
 "C109": "exact arithmetic; bit-for-bit independence is false: refuted",
 "C110": "exact arithmetic; pairs whose error is exactly one excluded for the weighted form; single solution of the normal equations needed: refuted without"
}
