{"id": "C01", "title": "Field constructor accepts exactly positive spacings", "statement": "ProbabilityField(dx,dy,xo,yo) raises RangeError when dx<=0 or dy<=0; otherwise it succeeds, and with a finite centre the result is a 3x3 all-zero, unmarked grid with total weight 0 whose middle node is exactly (xo,yo).", "quantifier": "all spacings and all centres, including NaN centres", "why_tests_cant": "infinitely many spacings and centres", "anchors": ["oneka/probabilityfield.py:ProbabilityField.__init__"]}
{"id": "C02", "title": "expand covers the requested box strictly", "statement": "After a successful expand(xmin,xmax,ymin,ymax), every requested coordinate lies strictly inside the grid's extent, with at least one grid line beyond it on each side.", "quantifier": "every field state (initialised or not) and every ordered box", "why_tests_cant": "unbounded boxes and histories", "anchors": ["oneka/probabilityfield.py:ProbabilityField.expand"]}
{"id": "C03", "title": "expand preserves georeferenced contents", "statement": "After expand, every node that existed before exists at the same world coordinates with the same accumulated weight and the same mark; every other node is zero and unmarked; the total weight and spacings are unchanged.", "quantifier": "every well-formed initialised field and every box", "why_tests_cant": "content x box combinations are unbounded", "anchors": ["oneka/probabilityfield.py:ProbabilityField.expand"]}
{"id": "C04", "title": "Grid geometry invariant for every history", "statement": "After any sequence of expand/insert/rasterize/register/reset calls, arrays have shape (nrows,ncols), both at least 3, xmax=xmin+(ncols-1)*dx, ymax=ymin+(nrows-1)*dy, and all nodes stay on the lattice fixed when the field was first initialised.", "quantifier": "all finite operation sequences", "why_tests_cant": "histories of unbounded length", "anchors": ["oneka/probabilityfield.py:ProbabilityField"]}
{"id": "C05", "title": "expand is minimal and idempotent", "statement": "expand adds the least number of rows/columns on each side needed for strict containment, changes nothing when the box is already strictly inside, and repeating it changes nothing.", "quantifier": "every initialised field and every box", "why_tests_cant": "minimality is a statement over all alternative sizes", "anchors": ["oneka/probabilityfield.py:ProbabilityField.expand"]}
{"id": "C06", "title": "Inverted boxes are rejected without side effects", "statement": "expand raises RangeError exactly when xmin>xmax or ymin>ymax, and the field is then unchanged.", "quantifier": "every field state and box", "why_tests_cant": "must hold in every state", "anchors": ["oneka/probabilityfield.py:ProbabilityField.expand", "oneka/probabilityfield.py:RangeError"]}
{"id": "C07", "title": "expand terminates in exact arithmetic", "statement": "For every field with positive spacing and every finite box the growth loops stop.", "quantifier": "every well-formed field and finite box", "why_tests_cant": "termination is not testable", "anchors": ["oneka/probabilityfield.py:ProbabilityField.expand"]}
{"id": "C08", "title": "expand terminates in IEEE double arithmetic", "statement": "The same termination claim for binary64 numbers, the arithmetic the code actually runs in.", "quantifier": "every binary64 field and finite box", "why_tests_cant": "non-termination is unobservable by a finite test; needs an argument for every iteration count", "anchors": ["oneka/probabilityfield.py:ProbabilityField.expand"]}
{"id": "C09", "title": "distancesquared is the squared distance to the segment", "statement": "For a<>b, distancesquared(a,b,c) equals the minimum over points p of the closed segment [a,b] of |p-c|^2 (a lower bound that is attained); it is symmetric in the endpoints.", "quantifier": "all real a<>b and c", "why_tests_cant": "continuum of inputs; the minimum ranges over the segment", "anchors": ["oneka/probabilityfield.py:ProbabilityField.distancesquared"]}
{"id": "C10", "title": "insert marks exactly the grid nodes within umbra", "statement": "insert(a,b,umbra) with a<>b marks exactly those nodes of the current grid whose distance to the segment is < umbra, in addition to nodes already marked; the sub-grid window never loses a node and never indexes out of range; nothing else in the field changes.", "quantifier": "every well-formed field, segment and umbra>0", "why_tests_cant": "the bounding-window arithmetic must be right for every alignment", "anchors": ["oneka/probabilityfield.py:ProbabilityField.insert"]}
{"id": "C11", "title": "rasterize marks exactly the grid nodes near the polyline", "statement": "After rasterize(x,y,umbra) on a track, a node of the resulting grid is marked iff it was marked before or lies within umbra of one of the track's segments of non-zero length; accumulated weights do not change.", "quantifier": "every field, every track length, every umbra>0", "why_tests_cant": "unbounded tracks", "anchors": ["oneka/probabilityfield.py:ProbabilityField.rasterize"]}
{"id": "C12", "title": "Every lattice node within umbra of a track is recorded, whatever the order of tracks", "statement": "Documentation: 'If a grid node is within umbra of a particle path, it is marked as visited.' So which nodes end up recorded should not depend on the order in which tracks are rasterized.", "quantifier": "all pairs of tracks, all fields", "why_tests_cant": "order independence quantifies over all schedules of tracks", "anchors": ["oneka/probabilityfield.py:ProbabilityField.rasterize", "oneka/probabilityfield.py:ProbabilityField.expand"]}
{"id": "C13", "title": "Stationary segments mark the nodes around them", "statement": "A zero-length segment should mark the nodes within umbra of its point (the doc rule of C12).", "quantifier": "all points and umbras", "why_tests_cant": "needs IEEE special-value semantics for every input", "anchors": ["oneka/probabilityfield.py:ProbabilityField.distancesquared", "oneka/probabilityfield.py:ProbabilityField.insert"]}
{"id": "C14", "title": "register's exact effect", "statement": "register(w) adds w to the total weight and to exactly the marked nodes' accumulated weights (each once, however many tracks marked it), clears every mark and changes nothing else; reset clears marks only.", "quantifier": "every initialised field and weight", "why_tests_cant": "every state", "anchors": ["oneka/probabilityfield.py:ProbabilityField.register", "oneka/probabilityfield.py:ProbabilityField.reset"]}
{"id": "C15", "title": "Accumulated weight is the weight of the realizations that marked the node", "statement": "For any history, the accumulated weight at a lattice node equals the sum over register calls of the weight if the node was marked since the previous register/reset and 0 otherwise, and the total weight is the sum of all registered weights.", "quantifier": "all operation histories and all nodes", "why_tests_cant": "unbounded histories", "anchors": ["oneka/probabilityfield.py:ProbabilityField"]}
{"id": "C16", "title": "Capture probability always lies in [0,1]", "statement": "With non-negative weights, after any history 0 <= accumulated weight <= total weight at every node, so pgrid/total_weight is in [0,1] once something was registered.", "quantifier": "all histories with non-negative weights", "why_tests_cant": "unbounded histories", "anchors": ["oneka/probabilityfield.py:ProbabilityField.register", "oneka/visualize.py:create_probability_plot"]}
{"id": "C17", "title": "reset discards exactly the unfinished realization", "statement": "Tracks rasterized since the last register have no influence on any accumulated weight once reset is called.", "quantifier": "all histories", "why_tests_cant": "unbounded histories", "anchors": ["oneka/probabilityfield.py:ProbabilityField.reset"]}
{"id": "C18", "title": "Uninitialised field operations fail cleanly", "statement": "On a field constructed without a centre, insert, register and reset raise AttributeError and leave it uninitialised; expand and rasterize initialise it.", "quantifier": "all arguments", "why_tests_cant": "all arguments", "anchors": ["oneka/probabilityfield.py:ProbabilityField"]}
{"id": "C19", "title": "Probability bounds hold in IEEE double arithmetic", "statement": "With non-negative binary64 weights, after any sequence of registrations each node's binary64 accumulated weight is <= the binary64 total; and with weight 1.0 both are exact integer counts up to 2^53 registrations.", "quantifier": "all binary64 weight sequences", "why_tests_cant": "rounding behaviour for every sequence", "anchors": ["oneka/probabilityfield.py:ProbabilityField.register"]}
{"id": "C20", "title": "Potential is the superposition of regional flow and wells", "statement": "compute_potential equals A dx^2+B dy^2+C dx dy+D dx+E dy+F plus the sum over wells of q ln(r^2) times a constant within 1e-17 of 1/(4 pi); it is additive in the well list, independent of the order of wells, and two wells at one place act as one with the summed discharge.", "quantifier": "all models, well lists and locations away from wells", "why_tests_cant": "continuum of inputs, unbounded well lists", "anchors": ["oneka/model.py:Model.compute_potential", "oneka/model.py:Model.compute_potential_wells_only"]}
{"id": "C21", "title": "Discharge is minus the gradient of the potential", "statement": "compute_discharge returns exactly (-dPhi/dx, -dPhi/dy) of compute_potential at every point not on a well.", "quantifier": "all models and all locations off the wells", "why_tests_cant": "derivative statements cannot be tested", "anchors": ["oneka/model.py:Model.compute_discharge", "oneka/model.py:Model.compute_potential"]}
{"id": "C22", "title": "Flow is divergence-free up to constant recharge", "statement": "d(Qx)/dx+d(Qy)/dy = -2(A+B) at every point not on a well, whatever the wells; the field is irrotational.", "quantifier": "all models and locations off wells", "why_tests_cant": "second derivatives over a continuum", "anchors": ["oneka/model.py:Model.compute_discharge"]}
{"id": "C23", "title": "Each well extracts its own discharge", "statement": "For a single well and no regional flow, the inward radial discharge at distance r is q c / r with |c-1/(2 pi)|<=2e-17, so the inflow through any circle around the well is its pumping rate to that relative accuracy.", "quantifier": "all wells, radii and directions", "why_tests_cant": "continuum", "anchors": ["oneka/model.py:Model.compute_discharge"]}
{"id": "C24", "title": "compute_head inverts the discharge-potential relation", "statement": "compute_head raises AquiferError iff the potential is <=0; otherwise it returns the unique h>0 with Phi = K h^2/2 if h<H and K H (h-H/2) if h>=H; it is strictly increasing in the potential and continuous across the confined/unconfined switch.", "quantifier": "all K>0,H>0 and potentials", "why_tests_cant": "continuum, uniqueness", "anchors": ["oneka/model.py:Model.compute_head"]}
{"id": "C25", "title": "Velocity is discharge over porosity times saturated thickness", "statement": "compute_velocity returns Q/(n*min(h,H)) and raises AquiferError exactly when the potential is <=0; its own 'head<=0' branch is unreachable.", "quantifier": "all models with K,H,n>0, all locations off wells", "why_tests_cant": "continuum; unreachability", "anchors": ["oneka/model.py:Model.compute_velocity"]}
{"id": "C26", "title": "The confined shortcut agrees with the full velocity exactly when confined", "statement": "compute_velocity_confined equals compute_velocity wherever the head is at or above the aquifer top (Phi>=K H^2/2); elsewhere its components are no larger in magnitude and strictly smaller when Q<>0 and the aquifer is unconfined; it never raises.", "quantifier": "all models and locations", "why_tests_cant": "continuum", "anchors": ["oneka/model.py:Model.compute_velocity_confined", "oneka/model.py:Model.compute_velocity"]}
{"id": "C27", "title": "Fitting rejects observations at or below the base", "statement": "construct_fit raises RangeError iff some observation's elevation is <= the base.", "quantifier": "all observation lists", "why_tests_cant": "unbounded lists", "anchors": ["oneka/model.py:Model.construct_fit"]}
{"id": "C28", "title": "Weighted residuals are the model's misfit", "statement": "For each observation the row residual WA.c-Wb equals (potential predicted with coefficients c and origin (xo,yo) minus observed potential)/its standard deviation; observed potential and deviation are the first-order-second-moment conversion of head (exactly inverted by compute_head when confined).", "quantifier": "all models, observations off the wells, coefficient vectors", "why_tests_cant": "continuum, unbounded lists", "anchors": ["oneka/model.py:Model.construct_fit", "oneka/model.py:Model.compute_head"]}
{"id": "C29", "title": "Fitting recovers the true coefficients", "statement": "If the observations are exactly those a model with coefficients c* produces and they determine the coefficients, fit_regional_flow returns c* (given lstsq returns a least-squares minimiser).", "quantifier": "all observation sets and coefficient vectors", "why_tests_cant": "continuum", "anchors": ["oneka/model.py:Model.fit_regional_flow", "oneka/model.py:Model.compute_fit"]}
{"id": "C30", "title": "Fit optimality, uniqueness and covariance", "statement": "When fit succeeds, the coefficients are the unique minimiser of the weighted squared misfit, satisfy the normal equations, and the returned covariance is the symmetric positive-definite inverse of the normal matrix.", "quantifier": "all observation sets", "why_tests_cant": "optimality ranges over all coefficient vectors", "anchors": ["oneka/model.py:Model.compute_fit"]}
{"id": "C31", "title": "The fit is singular exactly when all observations lie on one conic", "statement": "The normal matrix is invertible iff no non-zero quadratic polynomial vanishes at all observation locations.", "quantifier": "all observation sets", "why_tests_cant": "ranges over all conics", "anchors": ["oneka/model.py:Model.construct_fit", "oneka/model.py:Model.compute_fit"]}
{"id": "C32", "title": "Duplicate observation locations cause LinAlgError", "statement": "Documentation of fit_regional_flow: 'No two observation can be at the same location. Duplicate observations will cause a np.linalg.LinAlgError.'", "quantifier": "all observation lists containing two equal locations", "why_tests_cant": "universal over lists", "anchors": ["oneka/model.py:Model.fit_regional_flow"]}
{"id": "C33", "title": "The fitted surface does not depend on the local origin", "statement": "Fitting the same observations about two different origins gives the same potential at every location.", "quantifier": "all observation sets, all pairs of origins, all evaluation points", "why_tests_cant": "continuum", "anchors": ["oneka/model.py:Model.fit_regional_flow", "oneka/model.py:Model.compute_potential"]}
{"id": "C34", "title": "A failed fit leaves the model unchanged", "statement": "If fit_regional_flow raises, the model's origin and coefficients are what they were; if it succeeds exactly xo, yo and coef change.", "quantifier": "all models, observations and failure modes of the solvers", "why_tests_cant": "all failure points", "anchors": ["oneka/model.py:Model.fit_regional_flow"]}
{"id": "C35", "title": "The fit is invariant under reordering observations and rescaling all deviations", "statement": "Permuting the observations does not change the result; multiplying every observation deviation by s>0 (confined conditions) leaves the coefficients unchanged and multiplies the covariance by s^2.", "quantifier": "all permutations and factors", "why_tests_cant": "all permutations", "anchors": ["oneka/model.py:Model.fit_regional_flow"]}
{"id": "C36", "title": "Backtraces start at the start point and take steps shorter than maxstep", "statement": "The returned path is non-empty, begins with the start point, all vertices are finite, and consecutive vertices are less than maxstep apart.", "quantifier": "all velocity functions (including raising and NaN ones), durations, tolerances", "why_tests_cant": "all velocity fields", "anchors": ["oneka/capturezone.py:compute_backtrace"]}
{"id": "C37", "title": "Backtraces never run past the duration and cover it exactly on completion", "statement": "Elapsed time moves monotonically from 0 towards duration, never past it, and a trace that finishes without exception has elapsed time exactly equal to duration.", "quantifier": "all velocity functions and non-zero durations (exact arithmetic)", "why_tests_cant": "all velocity fields and step histories", "anchors": ["oneka/capturezone.py:compute_backtrace"]}
{"id": "C38", "title": "Every accepted step meets the error tolerance", "statement": "Each appended vertex comes from a Dormand-Prince step whose embedded error estimate is < tol and whose length is < maxstep.", "quantifier": "all velocity functions", "why_tests_cant": "all step histories", "anchors": ["oneka/capturezone.py:compute_backtrace"]}
{"id": "C39", "title": "Backtraces terminate for bounded velocity fields", "statement": "For any bounded velocity function, non-zero duration, tol>0 and maxstep>0, compute_backtrace returns.", "quantifier": "all bounded velocity functions", "why_tests_cant": "termination", "anchors": ["oneka/capturezone.py:compute_backtrace"]}
{"id": "C40", "title": "Backtraces always return, even for undefined velocities", "statement": "compute_backtrace should return whatever the velocity function does.", "quantifier": "all velocity functions, including those yielding NaN/inf", "why_tests_cant": "non-termination is not testable", "anchors": ["oneka/capturezone.py:compute_backtrace"]}
{"id": "C41", "title": "Exceptions never escape a backtrace; the completed part is returned", "statement": "If the velocity function raises at some evaluation, the vertices accepted so far are returned: the path is a prefix of the path for any velocity function that agrees on the evaluations made before.", "quantifier": "all velocity functions, all failure points", "why_tests_cant": "every crash point", "anchors": ["oneka/capturezone.py:compute_backtrace"]}
{"id": "C42", "title": "Dormand-Prince constants satisfy all order conditions", "statement": "The update weights satisfy every Runge-Kutta order condition up to order 5, the embedded error weights are the difference to a weight vector satisfying all conditions up to order 4, rows are consistent.", "quantifier": "all rooted trees of order <=5", "why_tests_cant": "finite but algebraic; tests see only aggregate accuracy", "anchors": ["oneka/capturezone.py:compute_backtrace"]}
{"id": "C43", "title": "Uniform flow is traced exactly", "statement": "For a constant velocity function the error estimate is zero, every accepted vertex lies at start + t v, and the last vertex is start + duration*v.", "quantifier": "all constant velocities, durations, tolerances", "why_tests_cant": "continuum", "anchors": ["oneka/capturezone.py:compute_backtrace"]}
{"id": "C44", "title": "One step in an affine field is the fifth-order Taylor expansion", "statement": "For any affine velocity function (confined regional flow without wells) a step of size h equals the exact flow's Taylor polynomial of degree 5 in h plus h^6/600 times the sixth-order term.", "quantifier": "all affine fields, points and step sizes", "why_tests_cant": "continuum", "anchors": ["oneka/capturezone.py:compute_backtrace"]}
{"id": "C45", "title": "Negative duration traces the reversed field", "statement": "Tracing with duration -T gives exactly the path of tracing the negated velocity function with duration T.", "quantifier": "all velocity functions and durations", "why_tests_cant": "all velocity fields", "anchors": ["oneka/capturezone.py:compute_backtrace"]}
{"id": "C46", "title": "Start points are npaths distinct, evenly spaced points on the circle of radius r+1", "statement": "compute_capturezone traces exactly npaths paths, the k-th starting at angle 2 pi k/npaths on the circle of radius rtarget+1 around the target; all start points are distinct.", "quantifier": "all targets, radii and npaths>0", "why_tests_cant": "unbounded npaths", "anchors": ["oneka/capturezone.py:compute_capturezone"]}
{"id": "C47", "title": "Backtracing climbs the potential", "statement": "The backtracing velocity used by the capture-zone drivers has non-negative inner product with the gradient of the discharge potential, zero exactly at stagnation points.", "quantifier": "all models, locations off wells, both confined modes", "why_tests_cant": "continuum", "anchors": ["oneka/stochastic.py:create_stochastic_capturezone", "oneka/deterministic.py:create_deterministic_capturezone"]}
{"id": "C48", "title": "No retained observation is within buffer of a well", "statement": "Every observation returned by filter_obs is located farther than buffer from every well, at the location of an input observation; every input observation farther than buffer from all wells is used.", "quantifier": "all observation and well lists", "why_tests_cant": "unbounded lists", "anchors": ["oneka/utilities.py:filter_obs"]}
{"id": "C49", "title": "Averaging conserves total precision and weighted mean", "statement": "The sums of 1/std^2 and of z/std^2 over the returned observations equal those over the input observations that survive the buffer test.", "quantifier": "all observation lists with positive deviations", "why_tests_cant": "unbounded lists", "anchors": ["oneka/utilities.py:filter_obs"]}
{"id": "C50", "title": "Merged observations are the minimum-variance average", "statement": "A merged observation's value lies between the least and greatest merged values, its deviation is no larger than any merged one, and no other affine-unbiased weighting has smaller variance.", "quantifier": "all groups and all weightings", "why_tests_cant": "optimality over all weightings", "anchors": ["oneka/utilities.py:filter_obs"]}
{"id": "C51", "title": "filter_obs is idempotent", "statement": "Filtering the filtered observations with the same wells and buffer returns them unchanged.", "quantifier": "all inputs", "why_tests_cant": "unbounded lists", "anchors": ["oneka/utilities.py:filter_obs"]}
{"id": "C52", "title": "Duplicates (within 1 m) are merged", "statement": "Documentation: 'Duplicate observations (i.e. obs at the same location) are averaged'; so no two returned observations share a location.", "quantifier": "all observation lists, in any order", "why_tests_cant": "universal over orders", "anchors": ["oneka/utilities.py:filter_obs"]}
{"id": "C53", "title": "filter_obs handles every validated observation list", "statement": "Observations accepted by oneka's validation (z_std >= 0) are filtered without an exception.", "quantifier": "all validated observation lists", "why_tests_cant": "universal", "anchors": ["oneka/utilities.py:filter_obs", "oneka/oneka.py:oneka"]}
{"id": "C54", "title": "Changing length units changes nothing but units", "statement": "Docstring: 'All arguments should be in consistent units. No unit conversions are made.' So rescaling all lengths rescales the filtered observations.", "quantifier": "all inputs and scale factors", "why_tests_cant": "universal over scale factors", "anchors": ["oneka/utilities.py:filter_obs", "oneka/oneka.py:oneka"]}
{"id": "C55", "title": "isdistribution accepts exactly ordered scalars, pairs and triples within bounds", "statement": "isdistribution(arg,lb,ub) is True iff arg is an int/float in [lb,ub], or a tuple/list of length 2 or 3 with lb<=a0<=a1(<=a2)<=ub; NaN is never accepted.", "quantifier": "all Python values of number/str/None/tuple/list shape", "why_tests_cant": "all values", "anchors": ["oneka/stochastic.py:isdistribution"]}
{"id": "C56", "title": "The mean of a validated distribution lies within its bounds", "statement": "For every distribution accepted by isdistribution(.,lb,ub) given as scalar or tuple, compute_variate_mean returns a number within [lb,ub], between the distribution's least and greatest entries.", "quantifier": "all validated scalars/tuples and bounds", "why_tests_cant": "continuum", "anchors": ["oneka/stochastic.py:compute_variate_mean", "oneka/stochastic.py:isdistribution"]}
{"id": "C57", "title": "Random variates stay within the validated bounds", "statement": "For every validated scalar/pair/triple, generate_random_variate returns a value within [lb,ub], whatever the random source (given numpy's documented support).", "quantifier": "all validated distributions and random sources", "why_tests_cant": "all random outcomes", "anchors": ["oneka/stochastic.py:generate_random_variate", "oneka/stochastic.py:isdistribution"]}
{"id": "C58", "title": "Every validated distribution can be sampled", "statement": "isdistribution is documented as the companion of generate_random_variate: whatever it accepts yields a number.", "quantifier": "all accepted values", "why_tests_cant": "universal", "anchors": ["oneka/stochastic.py:generate_random_variate", "oneka/stochastic.py:isdistribution"]}
{"id": "C59", "title": "A deterministic run registers exactly one realization", "statement": "create_deterministic_capturezone returns a field with total weight 1 and accumulated weight 0 or 1 at every node, no marks pending; it uses the distribution means and consults no random source.", "quantifier": "all inputs on which it returns", "why_tests_cant": "all inputs", "anchors": ["oneka/deterministic.py:create_deterministic_capturezone"]}
{"id": "C60", "title": "A stochastic run registers exactly nrealizations realizations", "statement": "create_stochastic_capturezone returns a field with total weight nrealizations, and at every node an integer count between 0 and nrealizations; no marks pending.", "quantifier": "all inputs and all random outcomes on which it returns", "why_tests_cant": "all random outcomes", "anchors": ["oneka/stochastic.py:create_stochastic_capturezone"]}
{"id": "C61", "title": "Seeding numpy makes stochastic runs reproducible", "statement": "A user expects that seeding numpy's global generator (used for wells and aquifer properties) fixes the result.", "quantifier": "all seeds and all operating-system entropy", "why_tests_cant": "quantifies over entropy outcomes", "anchors": ["oneka/stochastic.py:create_stochastic_capturezone"]}
{"id": "C62", "title": "Both drivers report recharge with the same sign", "statement": "The logged recharge is the same function of the coefficients in the deterministic and the stochastic driver.", "quantifier": "all coefficient vectors", "why_tests_cant": "universal", "anchors": ["oneka/stochastic.py:create_stochastic_capturezone", "oneka/deterministic.py:create_deterministic_capturezone"]}
{"id": "C63", "title": "Validated parameters give finite fitting weights and velocities", "statement": "Every parameter set accepted by oneka's validation leads to finite regression rows and finite velocities.", "quantifier": "all validated inputs", "why_tests_cant": "universal", "anchors": ["oneka/oneka.py:oneka", "oneka/model.py:Model.construct_fit", "oneka/model.py:Model.compute_velocity_confined"]}
{"id": "C64", "title": "Invalid arguments are rejected before any effect", "statement": "oneka() performs no logging, plotting or archiving when a validated precondition fails; each documented constraint is enforced.", "quantifier": "all argument tuples", "why_tests_cant": "all argument tuples", "anchors": ["oneka/oneka.py:oneka"]}
{"id": "C65", "title": "The documented defaults are usable", "statement": "Calling oneka() with all optional arguments omitted and valid required arguments passes validation.", "quantifier": "all valid required arguments", "why_tests_cant": "universal", "anchors": ["oneka/oneka.py:oneka"]}
{"id": "C66", "title": "oneka selects the mode by nrealizations", "statement": "nrealizations<=1 runs the deterministic driver and nrealizations>1 the stochastic driver, on the filtered observations, which number at least 7.", "quantifier": "all validated arguments", "why_tests_cant": "all arguments", "anchors": ["oneka/oneka.py:oneka"]}
{"id": "C67", "title": "oneka returns the capture-zone field", "statement": "Docstring: 'Returns: A capturezone probability field.'", "quantifier": "all inputs", "why_tests_cant": "universal", "anchors": ["oneka/oneka.py:oneka"]}
{"id": "C68", "title": "The impact curve is the sorted exceedance curve", "statement": "create_impact_plot returns pr, a descending rearrangement of all node probabilities, and area[k]=(k+1)*spacing^2; it raises CaptureZoneError iff the total weight is <=0.", "quantifier": "all fields", "why_tests_cant": "all grids", "anchors": ["oneka/visualize.py:create_impact_plot"]}
{"id": "C69", "title": "The logged decile table gives the area where the probability exceeds p", "statement": "For each p the logged area should be (number of nodes with probability > p)*spacing^2.", "quantifier": "all fields and thresholds", "why_tests_cant": "all grids", "anchors": ["oneka/oneka.py:oneka", "oneka/visualize.py:create_impact_plot"]}
{"id": "C70", "title": "The deterministic area is the number of captured nodes times the cell area", "statement": "create_deterministic_plot returns (number of nodes with positive accumulated weight)*dx*dy for every well-formed field with positive total weight.", "quantifier": "all well-formed fields", "why_tests_cant": "all grids", "anchors": ["oneka/visualize.py:create_deterministic_plot"]}
{"id": "C71", "title": "Plotted coordinates are the node coordinates", "statement": "The linspace axes used by the plots equal xmin+j*dx and ymin+i*dy for every reachable field.", "quantifier": "all reachable fields", "why_tests_cant": "all histories", "anchors": ["oneka/visualize.py:create_probability_plot", "oneka/visualize.py:create_deterministic_plot"]}
{"id": "C72", "title": "contour_head shows dry regions as missing", "statement": "contour_head should yield NaN at dry locations and never fail because part of the map is dry.", "quantifier": "all models and grids", "why_tests_cant": "universal", "anchors": ["oneka/visualize.py:contour_head"]}
{"id": "C73", "title": "Archiving round-trips every input", "statement": "load_oneka of what dump_oneka wrote returns a dictionary with all 20 entries, each under its own name with the value given.", "quantifier": "all argument values", "why_tests_cant": "all values", "anchors": ["oneka/archive.py:dump_oneka", "oneka/archive.py:load_oneka"]}
{"id": "C74", "title": "Archives of different runs do not overwrite each other", "statement": "Runs archived at different times go to different files, so every earlier archive stays readable.", "quantifier": "all sequences of runs", "why_tests_cant": "all schedules", "anchors": ["oneka/archive.py:dump_oneka"]}
{"id": "C75", "title": "Summary statistics are order statistics of the non-NaN values", "statement": "For each column the count is the number of non-NaN values, min<=median<=max, min<=mean<=max, std>=0 with std=0 iff all values are equal, independent of row order.", "quantifier": "all tables with at least one non-NaN value per column", "why_tests_cant": "unbounded tables", "anchors": ["oneka/utilities.py:summary_statistics"]}
{"id": "C76", "title": "Discarded tracks have no influence on later results", "statement": "Rasterizing a track and calling reset is as if the track had never been rasterized: later rasterize/register calls give the same weights at every location.", "quantifier": "all fields, discarded tracks and later operations", "why_tests_cant": "Needs two histories compared at every location; the difference appears only at nodes created by the discarded track.", "anchors": ["oneka/probabilityfield.py:ProbabilityField.rasterize", "oneka/probabilityfield.py:ProbabilityField.reset"]}
{"id": "C77", "title": "Results do not depend on the iteration budget of the model", "statement": "The loops of the program that are not bounded (growing the grid, stepping a trace) are modelled with a budget; any two budgets that suffice give the same field, trace, driver result and log, and a larger budget never changes a result.", "quantifier": "all inputs, budgets and random outcomes, any arithmetic", "why_tests_cant": "It is about the model: it says every theorem with a budget is about the program's own unbounded loops.", "anchors": ["oneka/probabilityfield.py:ProbabilityField.expand", "oneka/capturezone.py:compute_backtrace", "oneka/deterministic.py:create_deterministic_capturezone", "oneka/stochastic.py:create_stochastic_capturezone"]}
{"id": "C78", "title": "The impact plot draws every intermediate probability", "statement": "Every node whose probability of capture is strictly between 0 and 1 appears, with its area, among the points that create_impact_plot draws.", "quantifier": "all fields with positive total weight", "why_tests_cant": "Only the returned arrays are observable in a test; the drawn slice pr[i:j] depends on np.argmax of a mask that may be all False.", "anchors": ["oneka/visualize.py:create_impact_plot"]}
{"id": "C79", "title": "A run that dies while archiving harms no earlier archive", "statement": "A process killed during dump_oneka, or a dump_oneka that raises, changes no file except the one being written; archives written in other seconds are still read back.", "quantifier": "all disks, all points at which the write is interrupted, all earlier archives", "why_tests_cant": "Needs every crash point of the write.", "anchors": ["oneka/archive.py:dump_oneka", "oneka/archive.py:load_oneka"]}
{"id": "C80", "title": "A run whose driver succeeds runs to its end", "statement": "For accepted arguments with finite well locations and spacing, whenever the driver returns a field, oneka performs exactly this sequence of effects: banner, filtered observations, summary table, driver log, then (stochastic) probability plot, impact plot and decile table or (deterministic) area plot, then the archive, then showing the figures. No step after the driver raises, and the archive holds the driver's field.", "quantifier": "all accepted arguments, all random outcomes, both modes", "why_tests_cant": "The steps after the driver divide by the total weight, search sorted arrays and index masks that may be empty; the claim is that none of this can fail for a field a driver returns.", "anchors": ["oneka/oneka.py:oneka", "oneka/visualize.py", "oneka/archive.py:dump_oneka"]}
{"id": "C81", "title": "Every shipped data set is a valid, solvable problem", "statement": "Each module in data/ passes the argument checks of oneka (in exact arithmetic and in binary64), keeps at least seven observations after filtering, and its retained observations determine the regional flow: the fit succeeds for every positive conductivity and thickness, all well discharges and every local origin.", "quantifier": "all seven data sets, all aquifer parameters, all discharges, all origins", "why_tests_cant": "No test runs a data set; the claim covers every random draw of the aquifer parameters and discharges.", "anchors": ["data/*.py", "runme.py", "oneka/oneka.py:oneka", "oneka/model.py:fit_regional_flow"]}
{"id": "C82", "title": "A well-posed run raises no exception", "statement": "If the arguments are accepted, all numbers but duration, tol and maxstep are finite, conductivities and thicknesses are positive, distributions are tuples or numbers (triples with distinct ends when sampled), the observations are above the base with positive deviations, and at least seven retained observations lie on no conic, then oneka raises nothing: it returns None after archiving, or a tracing loop does not end.", "quantifier": "all such arguments, all random outcomes, both modes, confined or not", "why_tests_cant": "Needs every random draw and every track; exceptions could come from the fit, the sampling, the grid growth, the rasterization, the plots or the decile table.", "anchors": ["oneka/oneka.py:oneka", "oneka/stochastic.py:create_stochastic_capturezone", "oneka/deterministic.py:create_deterministic_capturezone", "oneka/capturezone.py:compute_capturezone"]}
{"id": "C83", "title": "A run records exactly the capture zones of the fitted models", "statement": "For a well-posed call with positive porosity, a run that returns has, per realization, a model whose parameters are the means of (deterministic) or lie within (stochastic) the given distributions, whose wells are the given wells, whose regional flow is the unique weighted least-squares fit to the retained observations (deterministic) or is drawn with its mean and covariance (stochastic); the tracks are backtraces, from equally spaced points one unit outside the target's screen, along the reversed seepage velocity of that model; and the accumulated weight of every node of the field is the number of realizations in which the node is closer than umbra to a track (up to nodes outside the grid as it was when the track was drawn).", "quantifier": "all well-posed arguments, all random outcomes, all nodes, all realizations", "why_tests_cant": "Joins validation, filtering, sampling, fitting, tracing, rasterizing and registering for all inputs; tests check the pieces on single numbers.", "anchors": ["oneka/stochastic.py:create_stochastic_capturezone", "oneka/deterministic.py:create_deterministic_capturezone", "oneka/capturezone.py:compute_capturezone", "oneka/probabilityfield.py:rasterize"]}
{"id": "C84", "title": "Smoothing keeps the drawn values probabilities", "statement": "The values contoured by create_probability_plot with smooth > 0 are the means of the node probabilities with Gaussian weights of that standard deviation, cut off after int(4*smooth+0.5) nodes and normalised, zero outside the grid. They lie in [0, 1] for every reachable field and every finite smooth, are positive exactly within the cut-off of a captured node, and their sum never exceeds the sum of the probabilities, with equality when the captured nodes keep the cut-off distance from the border. smooth <= 1e-15 changes nothing.", "quantifier": "all reachable fields, all finite smoothing parameters, all nodes", "why_tests_cant": "The repository has no test of the plots; the contour levels cover [0, 1] only, so a value outside would silently be left unpainted.", "anchors": ["oneka/visualize.py:create_probability_plot"]}
{"id": "C85", "title": "Filled cells are the captured cells", "statement": "create_deterministic_plot fills exactly one rectangle per node of positive weight, centred at the node with the spacings as sides; the interiors are disjoint; the returned area is their number times the cell area.", "quantifier": "all well-formed fields with positive total weight, any spacings", "why_tests_cant": "The figure is never inspected by a test; needs every grid shape and position.", "anchors": ["oneka/visualize.py:create_deterministic_plot"]}
{"id": "C86", "title": "Potential map", "statement": "contour_potential draws, for any model and window and any sizes of at least two, the potential at every location of the evenly spaced grid, dry or not; it fails exactly for negative sizes, with ValueError.", "quantifier": "all models, windows and sizes", "why_tests_cant": "Sibling of contour_head (C72); no test draws a map.", "anchors": ["oneka/visualize.py:contour_potential"]}
{"id": "C87", "title": "Impact plot shows the areas in acres", "statement": "The impact plot shows each probability against the area in acres over which it is exceeded.", "quantifier": "all fields, all spacings", "why_tests_cant": "The figure uses a logarithmic axis and integer division; zero acres are invisible there.", "anchors": ["oneka/visualize.py:create_impact_plot"]}
{"id": "C88", "title": "Quick capture zone plot", "statement": "quick_capture_zone(mo, we, nrays, nyears, maxstep, fmt) computes and plots a capture zone for a Model: per ray the track, in pieces of one year.", "quantifier": "all models, wells, ray counts", "why_tests_cant": "Never called by the package or a test.", "anchors": ["oneka/visualize.py:quick_capture_zone", "oneka/model.py:Model"]}
{"id": "C89", "title": "Grid size and edges in floating point", "statement": "When spacings, centre and requested boxes stay within 2^53 units of a common power of two (as with whole or binary-fraction spacings and coordinates that are binary64 numbers), every history of calls leaves, in IEEE binary64, exactly the rows, columns and edges that exact arithmetic gives; with a spacing like 0.1 this fails.", "quantifier": "all units, all dyadic fields, all histories", "why_tests_cant": "A rounding error in an edge shows only after particular sequences of expansions.", "anchors": ["oneka/probabilityfield.py:ProbabilityField.expand", "oneka/probabilityfield.py:ProbabilityField.__init__"]}
{"id": "C90", "title": "Accuracy of the segment distance in floating point", "statement": "In IEEE binary64 the computed squared distance from a point to a segment of non-zero length is within 2^-46 (|ab|^2 + |ac|^2) of the true one, for coordinates up to 2^200; for a segment whose ends are equal it is NaN.", "quantifier": "all finite coordinates of at most 2^200, all segments at least 2^-200 long", "why_tests_cant": "Tests compare four hand-made cases; the rounding error depends on all inputs.", "anchors": ["oneka/probabilityfield.py:distancesquared"]}
{"id": "C91", "title": "Marked nodes in floating point", "statement": "In IEEE binary64, on a dyadic field, insert and rasterize mark every node that is nearer than the umbra to a segment by more than the slack of C90, and no node that is farther by more than that slack; they keep weights, total and earlier marks, and the grid then contains the track strictly.", "quantifier": "all dyadic fields, tracks, umbras", "why_tests_cant": "Rounding matters only for nodes almost exactly one umbra away from a track.", "anchors": ["oneka/probabilityfield.py:ProbabilityField.insert", "oneka/probabilityfield.py:ProbabilityField.rasterize"]}
{"id": "C92", "title": "Weights and probabilities in floating point", "statement": "In IEEE binary64, when the registered weights are non-negative whole numbers of one power-of-two unit with a sum of at most 2^53 units, every location's weight is exactly the sum of the weights registered while it was marked, the total is exactly the sum of all registered weights, and the plotted probability of a node lies in [0, 1], is within a relative 2^-53 of the true quotient, and is 0 exactly for weight 0.", "quantifier": "all dyadic fields, all histories, all such weights", "why_tests_cant": "Accumulated rounding appears only after many realizations.", "anchors": ["oneka/probabilityfield.py:ProbabilityField.register", "oneka/visualize.py:create_probability_plot"]}
{"id": "C93", "title": "Elapsed time of a trace in floating point", "statement": "In IEEE binary64, for every velocity function and fifth root that return binary64 values and every finite duration of magnitude at most 2^1000, the elapsed time of a trace that returns is finite and never beyond the first binary64 number past the duration; a trace that was not stopped by an exception reaches the duration. When the duration has at most 52 significant binary digits, the elapsed time lies between 0 and the duration and equals it exactly when the trace was not stopped by an exception.", "quantifier": "all libm, velocity functions, starting points, durations, tolerances and maximum steps in binary64", "why_tests_cant": "Whether the last shortened step lands on the duration depends on the rounding of every step before it.", "anchors": ["oneka/capturezone.py:compute_backtrace"]}
{"id": "C94", "title": "Water balance of a circle", "statement": "The integral of the computed discharge into any circle that no well lies on is k times the sum of the pumping rates of the wells inside it, with |k-1|<=13e-17, plus 2(A+B) times its area, wherever the centre and whatever the other wells; the integral of the discharge along the circle is 0; without recharge two circles around the same wells take in the same water.", "quantifier": "all models, centres and radii with no well on the circle", "why_tests_cant": "An integral over a continuum, for every circle.", "anchors": ["oneka/model.py:Model.compute_discharge"]}
{"id": "C95", "title": "Weights count realizations exactly, in binary64", "statement": "After a run of the stochastic driver in binary64 arithmetic with at most 2^53 realizations, the total weight is the number of realizations, and every node's weight is exactly the number of realizations for which it is flagged; a node is flagged for a realization only if it is closer than umbra, up to an explicit slack, to a moving segment of one of that realization's tracks, and it is flagged whenever it is closer by more than the slack to such a segment and was in the first grid or lies in the bounding box of the tracks laid so far. The deterministic driver: the same with one realization. All track points lie inside the final grid.", "quantifier": "all inputs, draws, fits and elementary functions for which the driver returns, with coordinates in the stated range", "why_tests_cant": "Rounding could lose a node or a count for some of the 2^64 coordinates and any number of realizations.", "anchors": ["oneka/stochastic.py:create_stochastic_capturezone", "oneka/deterministic.py:create_deterministic_capturezone", "oneka/probabilityfield.py:ProbabilityField"]}
{"id": "C96", "title": "Every draw is used once and in order", "statement": "A stochastic run draws, for one realization after the other, the discharge of every well in the given order, then conductivity, porosity and thickness, each draw from the generator state the previous one left; a distribution that is a number is not drawn. The model of realization j has exactly those values, its coefficients are the j-th multivariate normal draw with the mean and covariance of the fit of that very model, its log line reports that model, and its capture zone is traced in it. The generator advances by the number of pairs and triples among the distributions in every realization.", "quantifier": "all arithmetics, generators, inputs and fits for which the driver returns", "why_tests_cant": "Random output hides a draw that is reused, skipped or taken in another order; only a proof over all generators fixes which draw goes where.", "anchors": ["oneka/stochastic.py:create_stochastic_capturezone", "oneka/stochastic.py:generate_random_variate"]}
{"id": "C97", "title": "A trace runs for ever only near a well or where the aquifer runs dry", "statement": "Give the velocity function of the drivers an alarm that raises at every point closer than d to a well and, in unconfined mode, at every point without a head of at least d. Then, for every d > 0, every backtrace returns; and if the alarm did not end it, the trace with the unchanged velocity function returns and is the same. So a trace that never returns comes closer than any d > 0 to a well or to dry ground.", "quantifier": "all models with positive parameters, wells, regional flows, start points, durations, distances d", "why_tests_cant": "termination, for all models", "anchors": ["oneka/capturezone.py:compute_backtrace", "oneka/model.py:compute_velocity", "oneka/model.py:compute_velocity_confined"]}
{"id": "C98", "title": "Printed numbers are the numbers, correctly rounded", "statement": "Every number that the log prints reads back, by an independent reader of decimal text, as the value with the right sign, rounded to the printed number of decimals (codes .nf) or of significant digits (codes .ne), ties to even; thousands are separated exactly when asked; padding never changes or cuts a number; NaN and infinities are never printed as a number. The text of an unformatted float denotes a decimal that rounds to that float, and no decimal with fewer digits does, so different floats have different texts.", "quantifier": "all binary64 numbers, numbers of decimals, widths", "why_tests_cant": "2^64 values; the wrong digit appears only at ties, at powers of ten and in subnormals.", "anchors": ["oneka/oneka.py:log_the_run", "oneka/utilities.py:summary_statistics", "oneka/stochastic.py:create_stochastic_capturezone", "oneka/deterministic.py:create_deterministic_capturezone"]}
{"id": "C99", "title": "The summary table is aligned and says what it labels", "statement": "For counts below 10^12 and statistics of at most 99,999,999 in magnitude, all eleven lines of the table of the retained observations have 53 characters, and the field of twelve characters in the row labelled cnt, min, med, max, avg or std and the column named Easting, Northing, Head or Stdev reads back as that statistic of that column, rounded to two decimals.", "quantifier": "all tables of four columns with numbers in that range", "why_tests_cant": "A swapped row or column or a number that overflows its field shows only for particular values.", "anchors": ["oneka/utilities.py:summary_statistics", "oneka/oneka.py:oneka"]}
{"id": "C100", "title": "The log identifies the run", "statement": "log_the_run logs all of the defining arguments: two validated calls that are logged alike have the same arguments. A validated call whose nrealizations is an integer is logged without an exception.", "quantifier": "all pairs of argument lists that pass the validation", "why_tests_cant": "It is a claim about all pairs of runs; examples cannot show that no two runs share a log.", "anchors": ["oneka/oneka.py:log_the_run"]}
{"id": "C101", "title": "The log accounts for every observation", "statement": "When filter_obs returns, every observation given is either removed, with one message that names it and a well within the buffer, or merged, with one message that names it, or returned as given; the others returned are averages, with one message each. The messages then give the number of observations returned and list them in order, numbered from 0 with at least three digits. Observations and exceptions are those of filter_obs without its messages.", "quantifier": "all lists of observations and wells, all buffers, all arithmetics", "why_tests_cant": "The messages depend on which observations are near wells or near each other; a message that is lost or names another observation shows only in particular layouts.", "anchors": ["oneka/utilities.py:filter_obs"]}
{"id": "C102", "title": "The logged results can be read back", "statement": "The lines logged for a realization show its number, base, conductivity, porosity and thickness to two decimals, and the recharge and the twelve coefficients to five significant digits, each correctly rounded and in order; so do the lines of the deterministic driver. The table of capture probabilities has one line per level whose aligned fields show the level, the area and the acres, and the deterministic area is shown in square metres and acres.", "quantifier": "all finite binary64 values (within the widths of the table)", "why_tests_cant": "Rounding and alignment depend on all digits of every value; a few sample runs cannot cover ties, carries, commas and signs.", "anchors": ["oneka/stochastic.py:stochastic", "oneka/deterministic.py:deterministic", "oneka/oneka.py:oneka"]}
{"id": "C103", "title": "The tolerance bounds the local error", "statement": "An accepted step of a trace ends within the given tolerance of the place that the particle reaches from the start of the step (the docstrings call tol the tolerance for the local error).", "quantifier": "all tolerances, maximum steps, models and start points", "why_tests_cant": "The error estimate is the difference of two approximations; that it can be tiny while both are far off shows only for flows and start points chosen for it.", "anchors": ["oneka/capturezone.py:compute_backtrace"]}
{"id": "C104", "title": "Traces follow the flow: regional flow", "statement": "In a confined aquifer without wells each vertex of a trace is within 11/3600 t L^5 H^5 |v| e^(26/25 L t) of the particle that moves with the backtracing velocity from the start point, at the time t of the vertex, where H is the longest time step taken, |v| the speed at the start and L the size of the velocity gradient.", "quantifier": "all models without wells, all start points, durations, tolerances and maximum steps", "why_tests_cant": "A test compares a trace with a reference at a few points of a few flows; the order of the error and its growth with time are statements about all of them.", "anchors": ["oneka/capturezone.py:compute_backtrace", "oneka/model.py:compute_velocity_confined"]}
{"id": "C105", "title": "Traces follow the flow: wells", "statement": "If the particle that moves with the backtracing velocity from the start point keeps the distance 2 rho from every well of a confined aquifer, then a trace whose time steps H are short enough, 50 L H <= 1 and 5 V H (e^(L D) - 1) + 2 V H <= rho, has each vertex within 5 V H (e^(L t) - 1) of the particle at the time t of the vertex; L is the size of the regional velocity gradient plus that of the wells at the distance rho, and V a bound for the speed near the path. The same for any velocity function that is bounded and Lipschitz near the path.", "quantifier": "all models with wells, all start points, durations, tolerances and maximum steps; all velocity functions", "why_tests_cant": "Convergence to the path is a statement about all step sequences and all flows, also those near wells.", "anchors": ["oneka/capturezone.py:compute_backtrace", "oneka/model.py:compute_velocity_confined"]}
{"id": "C106", "title": "Capture zones are where the water comes from", "statement": "In a run in a confined aquifer each node counts a realization only if water on the way to the well passes it closer than umbra + E within the duration, and it does count the realization if the water passes it closer than umbra - E before the trace ends and the node is in the bounding box of the trace (and the trace does not stand still); E = 5 V H (e^(L D) - 1) + V H / 2 is of the first order in the longest time step H, with L and V as in C105. Under the conditions of C105 a track, with the segments between its vertices, and the path of the water are within E of each other.", "quantifier": "all runs, deterministic and stochastic, all realizations, nodes, traces and velocity functions", "why_tests_cant": "It compares the computed field with the exact paths of the water, which are known in closed form for few flows only, and for all fields, wells and step sequences.", "anchors": ["oneka/capturezone.py:compute_capturezone", "oneka/capturezone.py:compute_backtrace", "oneka/deterministic.py:create_deterministic_capturezone", "oneka/stochastic.py:create_stochastic_capturezone", "oneka/probabilityfield.py:rasterize"]}
{"id": "C107", "title": "Computed tracks tell where the water goes", "statement": "If the computed vertices of a trace in a confined aquifer keep the distance 2 rho from every well, have speeds up to v, and the time steps H are short enough, 50 L H <= 1 and 6 V H (e^(L T) - 1) + 2 V H <= rho (L the size of the velocity gradient at the distance rho, V = v + L rho, T the time the trace ends), then there is exactly one path of the water from the start point for the time T that does not meet a well; it keeps the distance rho from the wells, and trace and path are within 6 V H (e^(L T) - 1) of each other. In a run every node counts a realization whose tracks meet these conditions only if the water passes closer than umbra + E, and it does if the water passes closer than umbra - E (in the bounding box of the track, which does not stand still).", "quantifier": "all traces, models with wells, velocity functions equal to the upstream velocity off the wells; all runs, realizations and nodes", "why_tests_cant": "The path of the water is the solution of a differential equation without a closed form; that it exists, is unique and is next to the computed track is no observable of a run.", "anchors": ["oneka/capturezone.py:compute_backtrace", "oneka/capturezone.py:compute_capturezone", "oneka/model.py:compute_velocity_confined", "oneka/deterministic.py:create_deterministic_capturezone", "oneka/stochastic.py:create_stochastic_capturezone"]}
{"id": "C108", "title": "The transcript of a run", "statement": "A run that returns has said, in this order: the banner and its arguments; what filter_obs says; the table of retained observations; in a stochastic run for every realization three lines with its number, base, conductivity, porosity, thickness, recharge, fitted and chosen coefficients, which are those of the model that is traced, followed by one warning for each of its traces that ended early, in order, with the time reached; in a deterministic run the parameters and the warnings; then the figures are made, the table of deciles or the area is written, the archive is saved and the figures shown. A driver that raises has said the blocks of the realizations before, and of the failing one nothing, the message of lstsq, or its lines and the warnings so far. Figures, archive and result are those of the numeric model.", "quantifier": "all arguments, solvers, generators, entropy and traces (binary64)", "why_tests_cant": "A transcript interleaves messages of several modules with effects; which warnings appear depends on every trace of every realization.", "anchors": ["oneka/oneka.py:oneka", "oneka/stochastic.py:create_stochastic_capturezone", "oneka/deterministic.py:create_deterministic_capturezone", "oneka/capturezone.py:compute_backtrace", "oneka/model.py:fit_regional_flow"]}
{"id": "C109", "title": "Traces that end early are reported in the log file", "statement": "In a run started by runme.py every trace that ends before the duration is reported in the log file of the run.", "quantifier": "all runs in a new process", "why_tests_cant": "The unit tests do not set up logging; a missing line is not an error.", "anchors": ["oneka/capturezone.py:log", "oneka/capturezone.py:compute_backtrace", "runme.py:main"]}
{"id": "C110", "title": "A log file holds one run", "statement": "The log file of a call of main holds the messages of that run, once each and in order, and nothing else, however many calls are made in the process.", "quantifier": "all sequences of calls of main", "why_tests_cant": "It takes several runs in one process and a look into all their files.", "anchors": ["runme.py:main"]}
{"id": "C111", "title": "The warning about a trace is true", "statement": "Whenever a backtrace ends early and the warning 'trace terminated prematurely at t = ... < duration' is written, the time t is less than the duration.", "quantifier": "all durations, velocity functions and traces (binary64)", "why_tests_cant": "Needs all traces that end early, for durations of either sign.", "anchors": ["oneka/capturezone.py:compute_backtrace"]}
{"id": "C112", "title": "The probability field exactly", "statement": "After a run the nodes of the field are exactly the points of the lattice around the target at most one spacing outside the bounding box of the target and the vertices of all tracks; the weight of a node is exactly the number of realizations with a track passing closer than the umbra to it that is traced when the window holds the node; and the total weight is the number of realizations.", "quantifier": "all runs that return, all zones", "why_tests_cant": "A test compares a few fields with a few recomputed ones; the statement fixes every node and weight of every field.", "anchors": ["oneka/probabilityfield.py:ProbabilityField", "oneka/capturezone.py:compute_capturezone", "oneka/stochastic.py:create_stochastic", "oneka/deterministic.py:create_deterministic"]}
{"id": "C113", "title": "The probability map is (nearly) unbiased", "statement": "Over all equally likely outcomes of the draws of the realizations, the mean of the estimate weight/realizations at a point of the lattice is at most the probability that the capture zone of one realization reaches the point and at least that the zone is counted even when it comes first; the difference from the first probability is at most one over the expected number of realizations that cover the point, and zero around the well.", "quantifier": "all finite sets of outcomes, arguments, numbers of realizations and points of the lattice", "why_tests_cant": "A statement about the mean over all outcomes of all draws.", "anchors": ["oneka/stochastic.py:create_stochastic", "oneka/probabilityfield.py:rasterize", "oneka/probabilityfield.py:register"]}
{"id": "C114", "title": "The probability map converges", "statement": "For any tolerance e, the share of the outcomes of a run for which the estimate at a point of the lattice is farther than e from the probability that the capture zone of one realization reaches the point is bounded by a constant over the number of realizations.", "quantifier": "all finite sets of outcomes, arguments, tolerances, numbers of realizations and points of the lattice", "why_tests_cant": "A limit statement about the distribution of the result over all draws.", "anchors": ["oneka/stochastic.py:create_stochastic", "oneka/probabilityfield.py:rasterize", "oneka/probabilityfield.py:register"]}
{"id": "C115", "title": "Another coordinate system", "statement": "If the origin of the coordinates and the datum of the elevations are moved (wells, observations, base and heads alike), a run does the same: the same observations are retained, the same realizations are made with the same log messages and the same outcome, and the field of the run is the original field with its edges moved and the same weights and marks at the moved nodes.", "quantifier": "all arguments, all shifts (for a shift of the datum: observed heads that are numbers with deviations other than 0), generators, least-squares oracles, numbers of realizations and both drivers", "why_tests_cant": "Relates infinitely many pairs of runs; the run goes through fit, tracer, rasterizing and plots.", "anchors": ["oneka/oneka.py:oneka", "oneka/stochastic.py:create_stochastic", "oneka/deterministic.py:create_deterministic", "oneka/utilities.py:filter_obs", "oneka/model.py:fit_regional_flow", "oneka/probabilityfield.py:rasterize"]}
{"id": "C116", "title": "The order of the wells", "statement": "Listing the wells in another order (with the index of the target changed accordingly) changes nothing: one realization gives the same field, the same log messages and the same outcome; a deterministic run, and a stochastic run whose wells draw the same discharges, give the same result; a whole run does the same, up to the archived arguments.", "quantifier": "all wells, orders, observations, generators and oracles; whole runs that return, with several realizations for wells with known discharges", "why_tests_cant": "There are factorially many orders of each list of wells, and infinitely many lists.", "anchors": ["oneka/oneka.py:oneka", "oneka/stochastic.py:create_stochastic", "oneka/deterministic.py:create_deterministic", "oneka/utilities.py:filter_obs", "oneka/model.py:Model.fit_regional_flow", "oneka/model.py:Model.compute_potential", "oneka/model.py:Model.compute_discharge"]}
{"id": "C117", "title": "The order of the observations", "statement": "Listing the observations in another order changes nothing: the same observations are retained, the same field is computed and the run ends in the same way.", "quantifier": "all lists of observations, orders, generators and oracles", "why_tests_cant": "There are factorially many orders of each list of observations; the dependence on the order shows only for observations closer than 1 m that are not listed next to each other.", "anchors": ["oneka/oneka.py:oneka", "oneka/stochastic.py:create_stochastic", "oneka/deterministic.py:create_deterministic", "oneka/utilities.py:filter_obs", "oneka/model.py:Model.fit_regional_flow", "oneka/utilities.py:summary_statistics"]}
{"id": "C118", "title": "Traces follow the flow: unconfined aquifers", "statement": "If the particle that moves with the backtracing velocity from the start point keeps the distance 2 rho from every well and the potential along its way keeps W rho above that of the depth s, then a trace whose time steps H are short enough, 50 L H <= 1 and 5 V H (e^(L D) - 1) + 2 V H <= rho, has each vertex within 5 V H (e^(L t) - 1) of the particle at the time t of the vertex, whether the aquifer is confined or unconfined from place to place; G bounds the change of the discharge per unit length at the distance rho from the wells, W the discharge near the path, V = W / (n s) and L = G / (n s) + W^2 / (n K s^3).", "quantifier": "all models with wells, all start points, durations, tolerances and maximum steps", "why_tests_cant": "Convergence to the path is a statement about all step sequences and all flows; the velocity has a kink where the aquifer changes from confined to unconfined.", "anchors": ["oneka/capturezone.py:compute_backtrace", "oneka/model.py:Model.compute_velocity", "oneka/model.py:Model.compute_head", "oneka/model.py:Model.compute_potential"]}
{"id": "C119", "title": "The printed form of an object", "statement": "The repr and the str of a probability field or of a model are a constructor call: evaluating it gives the object back, and different objects have different texts.", "quantifier": "all fields and models, empty or not, with finite numbers", "why_tests_cant": "That no two objects share a text, and that a text is read in one way only, are statements about all pairs of texts.", "anchors": ["oneka/probabilityfield.py:ProbabilityField.__repr__", "oneka/probabilityfield.py:ProbabilityField.__str__", "oneka/model.py:Model.__repr__", "oneka/model.py:Model.__str__"]}
{"id": "C120", "title": "Debug messages of the grids", "statement": "Whenever the grids of a field change their size, one debug message is logged that says the new size, and none otherwise.", "quantifier": "all fields, empty or not, and all ranges", "why_tests_cant": "Debug messages are switched off in every test and run; the claim is about all sizes.", "anchors": ["oneka/probabilityfield.py:ProbabilityField.expand"]}
{"id": "C121", "title": "The figures of a run", "statement": "For every accepted call drawing the figures raises nothing that the computation did not raise. A stochastic run that returns has drawn two figures of the field it archives, the smoothed map of the probabilities and the impact plot, a deterministic run one, the filled cells. The map and the cells have one circle at each well in the order of the call, the star at the target well, and one plus at each retained observation, each plus farther than the buffer from every circle.", "quantifier": "all accepted calls, all outcomes of the drivers", "why_tests_cant": "The figures are only looked at; that they show the wells, observations and field of the run is a statement about all calls.", "anchors": ["oneka/visualize.py:create_probability_plot", "oneka/visualize.py:create_deterministic_plot", "oneka/visualize.py:create_impact_plot", "oneka/oneka.py:oneka"]}
{"id": "C122", "title": "The water that a trace follows, confined or not", "statement": "If the velocity within rho of each vertex of a trace is at most V and changes by at most L per unit length, and the time steps H are short enough, 50 L H <= 1 and 6 V H (e^(L T) - 1) + 2 V H <= rho, then there is exactly one path of the water from the start point for the time T of the trace, and each vertex is within 6 V H (e^(L t) - 1) of it at its time t. In an aquifer that may be unconfined this holds with V and L computed from the model as soon as the vertices keep 2 rho from the wells, the discharge there is at most w and the potential keeps the water s deep within rho. Hence in runs with confined = False each count of a node says for how many realizations of this kind the water from the start points passes it, up to the distance E = 6 V H (e^(L D) - 1).", "quantifier": "all velocity functions; all models with wells; all accepted calls with confined = False", "why_tests_cant": "Existence and uniqueness of the path of the water and the distance to it are statements about all step sequences and all flows.", "anchors": ["oneka/capturezone.py:compute_backtrace", "oneka/capturezone.py:compute_capturezone", "oneka/model.py:Model.compute_velocity", "oneka/deterministic.py:create_deterministic_capturezone", "oneka/stochastic.py:create_stochastic_capturezone"]}
{"id": "C123", "title": "Accuracy of the discharge and of the velocity in binary64", "statement": "Evaluated in binary64 at a point off the wells, compute_discharge returns finite numbers that differ from the exact discharge of the model by at most (n + 9)/2^52 times the sum of the absolute values of the parts of the discharge (2|A||dx|, |C||dy|, |D| and |q||dx|/(6 r^2) for each of the n wells) plus 2^-600. compute_velocity_confined returns the exact velocity with an error of at most (n + 12)/2^52 times that sum over thickness times porosity.", "quantifier": "all models and points with numbers up to 2^200 in size, all numbers of wells up to 10^12", "why_tests_cant": "A test compares a few evaluations with a tolerance; the bound is for all models and points and grows with the number of wells as stated.", "anchors": ["oneka/model.py:Model.compute_discharge", "oneka/model.py:Model.compute_velocity_confined"]}
{"id": "C124", "title": "A trace computed in binary64 follows the water", "statement": "Let a trace be computed in binary64. Its elapsed time differs from the exact sum of its n time steps by at most n/2^52 of it. If the velocity is evaluated with an error of at most d, if the exact velocity within rho of each vertex is at most V and changes by at most L per unit length, if no time step is longer than H with 50 L H <= 1 and no coordinate larger than X, and if E + 2 V H + 140 d H + 3 R < rho, where R = X/2^51 + H V/2^41, eta = 11 d + 4 L R and E = (6 V H + 2 eta/L)(e^(L T) - 1) + N R e^(L T), then every vertex is finite, the water follows exactly one path from the start point for the time T of the trace, and each of the N vertices is within E of it. For a confined aquifer d follows from the model by C123 and V and L from the distance to the wells and the velocities at the vertices.", "quantifier": "all velocity functions, all models with wells, all start points, durations, tolerances and step limits", "why_tests_cant": "The bound is for all step sequences, all roundings and all flows, and the path of the water is not known in closed form.", "anchors": ["oneka/capturezone.py:compute_backtrace", "oneka/model.py:Model.compute_velocity_confined"]}
{"id": "C125", "title": "The probabilities of a run in binary64 count where the water passes", "statement": "When a run in binary64 returns, the weight of every node of its field is exactly the number of realizations that count it (1 or 0 for the deterministic driver), under the conditions of C95 on the grid. For each realization whose traces satisfy the conditions of C124 the water follows a path from each start point, and up to a distance E the node is counted when the water passes closer than the umbra u: if it is counted then the water of some path passes closer than u + E; if the water passes closer than u - E, the trace does not stand still and its bounding box has the node, then it is counted. E is the bound of C124 for the distance between trace and water plus (u + S^2/u)/2^44, where S is the longest segment.", "quantifier": "all inputs of both drivers, all draws, all aquifer models, all flows that a chart exists for", "why_tests_cant": "The statement relates the output of a whole run with all its rounding errors to the exact paths of the water, which are not known in closed form.", "anchors": ["oneka/deterministic.py:create_deterministic_capturezone", "oneka/stochastic.py:create_stochastic_capturezone", "oneka/capturezone.py:compute_backtrace", "oneka/probabilityfield.py:ProbabilityField.rasterize"]}
{"id": "C126", "title": "The potential in binary64 is accurate", "statement": "For a model whose numbers have moderate size and a point that is not at a well, compute_potential in binary64 returns a finite number which differs from the exact potential by at most ((n + 13)/2^52 + 2 eps) times the sum of the absolute values of its parts, where n is the number of wells and eps the relative accuracy of the logarithm.", "quantifier": "all models, all points, all logarithms of the given accuracy", "why_tests_cant": "A test compares with another computation in binary64 at a few points; the bound holds at all points and relates to the exact value.", "anchors": ["oneka/model.py:Model.compute_potential"]}
{"id": "C127", "title": "Head and velocity in binary64 are accurate, whether the aquifer is full or not", "statement": "Where the exact potential is at least a hundred times the error that C126 allows, compute_head and compute_velocity return in binary64 without an exception. The head differs from the exact head h by at most 3 e/(k b) + h/2^48, where e is the bound of C126, k the conductivity and b the depth of the water (the smaller of head and thickness). Each component of the velocity differs from the exact one by at most ((n + 12)/2^51 + 6 e/(k b^2) + 1/2^46) times the sum of the absolute values of its parts.", "quantifier": "all models, all points, all logarithms of the given accuracy", "why_tests_cant": "The code takes one of several formulas, by comparing computed numbers; near the limit between confined and unconfined, rounding errors decide which. The bound holds in all cases.", "anchors": ["oneka/model.py:Model.compute_head", "oneka/model.py:Model.compute_velocity"]}
{"id": "C128", "title": "Traces in binary64 follow the water, whether the aquifer is full or not", "statement": "Take a trace that compute_backtrace returns in binary64 along the velocity of compute_velocity. Let its vertices keep 2 rho away from the wells and in water so deep that within rho of them it is at least s deep, let its time steps be at most H, and let the errors of binary64 and of the logarithm be small against these (the conditions are explicit). Then the water follows exactly one path from the start point for the time of the trace, and the trace is within E of it, where E is an explicit bound that grows with the steps, the speed, its change per unit length, the number of vertices and the error of the velocity of C127. With the same conditions C125 applies to the capture zones of runs with unconfined aquifers.", "quantifier": "all models, all start points, all traces that are returned, all logarithms of the given accuracy", "why_tests_cant": "The exact path is not known in closed form, and the statement covers all rounding errors of the potential, the square root, the division and the integration.", "anchors": ["oneka/capturezone.py:compute_backtrace", "oneka/model.py:Model.compute_velocity"]}
{"id": "C129", "title": "summary_statistics lays out a table with any columns", "statement": "Let summary_statistics be called with any number of columns, names and format codes of the forms w.nf and w.ne. If no entry is wider than the text of 1 in the format of its column, then the eleven lines are all of the same length, the title is inside the first one, the rows are labelled cnt, min, med, max, avg and std in this order, and every cell shows the statistic of its row and column rounded as its format code prescribes. The text that is written has exactly these lines, each ended by a line break.", "quantifier": "all numbers of columns, all format codes of the two forms, all names, titles and statistics", "why_tests_cant": "A test checks the layout for a few formats and numbers only.", "anchors": ["oneka/utilities.py:summary_statistics"]}
{"id": "C130", "title": "runme.py runs the data module it is given", "statement": "For a module that does not exist, main prints a message that names the missing module, and does nothing else. For a data module that defines the eighteen names, main calls oneka once with their values, and the log file and the archive are in the directory logs. As a script, the line with DONE is printed exactly if main has returned.", "quantifier": "all modules, all sets of directories, both kinds of path separator, all states of logging", "why_tests_cant": "Tests run in one directory on one platform; the statement covers all modules, also those that lack names, and what a failed call leaves behind for the next one.", "anchors": ["runme.py:main", "runme.py:profile_me", "oneka/archive.py:dump_oneka"]}
{"id": "C131", "title": "Axes, probabilities and areas of the plots in binary64", "statement": "The axes of the probability plot are the coordinates of the grid lines without rounding, and each drawn probability is the quotient of the weights, correct to one part in 2^53. The area of a deterministic capture zone is the number of captured nodes times the area of a cell, up to one rounding for each node, and exactly for cell areas with few digits. The curve of areas has the probabilities in descending order and the area of j nodes as its j-th value, correct to two roundings. The points of the curve that are drawn are those of exact arithmetic.", "quantifier": "all fields on dyadic lattices with sound weights, all spacings in a wide range of sizes", "why_tests_cant": "The area is a sum over all captured nodes, whose rounding errors could accumulate; tests try a few grids, the statement bounds the error for every grid.", "anchors": ["oneka/visualize.py:create_probability_plot", "oneka/visualize.py:create_deterministic_plot", "oneka/visualize.py:create_impact_plot"]}
{"id": "C132", "title": "The decile table in binary64", "statement": "Rounding does not change the rows of the decile table: the row for p = (k+1)/20 is that of the first node, in descending order of probability, whose probability is at most p, as in exact arithmetic.", "quantifier": "all fields with sound weights, all nineteen thresholds", "why_tests_cant": "A difference appears only when a node has exactly the probability of a threshold, for example one half; tests would have to hit such a case by chance.", "anchors": ["oneka/oneka.py:oneka", "oneka/visualize.py:create_impact_plot"]}
{"id": "C133", "title": "Start points in binary64", "statement": "If cos and sin are correct to within e, the k-th of n start points computed in binary64 differs from the exact point on the circle of radius r + 1 around (x, y) by at most (r + 1)(e + 2^-48) + |x| 2^-53 in x, likewise in y, and lies at least half a meter outside the well's radius for coordinates up to 2^50, radii up to 2^30 and e = 2^-40.", "quantifier": "all numbers of paths up to 2^53, all path indices, all finite centers and radii up to 2^500, all math libraries meeting the contract", "why_tests_cant": "Tests check a few wells and path counts; the bound is for every number of paths, every magnitude of the coordinates and every math library that is accurate enough.", "anchors": ["oneka/capturezone.py:compute_capturezone"]}
