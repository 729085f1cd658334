{
 "C08": {
  "status": "partial",
  "note": "Refuted: the property is false of the code. Spacing 1e-10 around 5e6 (both accepted) makes the growth loop run forever in binary64, and an infinite box does so in any arithmetic. In general (C08_narrow_refuted): for all binary64 fields and boxes, growth on a side where the spacing is at most 2^-55 times the edge or the box never ends. The partial theorem C08_wide_partial: for all binary64 fields and boxes the loops end if the spacings are at least 2^-52 times the coordinates. Exactly (C08_exactly_partial): for all binary64 fields and finite boxes the call runs for ever if and only if, on one side, the edge reaches a number that adding or subtracting the spacing does not change before it passes the box; C08_fixed_partial: those are the numbers whose next neighbour is more than twice the spacing away (at exactly twice it depends on the tie)."
 },
 "C12": {
  "status": "partial",
  "note": "Refuted: the documented rule is false of the code; rasterizing two tracks in the two orders marks different nodes. The partial theorem: the final grid is the same and nodes that existed before both calls are treated alike."
 },
 "C13": {
  "status": "partial",
  "note": "Refuted: a zero-length segment marks nothing (proved as the exact behaviour)."
 },
 "C76": {
  "status": "partial",
  "note": "Refuted: a rasterized and then reset track enlarges the grid, so a later track near the new nodes is recorded there; without the discarded track it is not. What holds: nodes that the field already had are unaffected, other nodes keep at least the weight, the total is unaffected, and a discarded track inside the grid has no effect at all."
 },
 "C32": {
  "status": "partial",
  "note": "Refuted: the documentation is false of the code. A list holding the same observation twice is fitted without an exception, for every linear-algebra library that meets the contract; duplicates never make a fit fail. What does make it fail is C31."
 },
 "C27": {
  "status": "proved",
  "note": "For positive thickness; without wells also non-zero conductivity and deviations, because otherwise Python's division raises ZeroDivisionError at an earlier observation."
 },
 "C29": {
  "status": "proved",
  "note": "numpy.linalg is an oracle with a stated contract (SpecFit.v), shown satisfiable by elim_la_contract. The general theorem is about observations whose converted potential is the model's; the second one is about the heads compute_head returns in confined conditions."
 },
 "C31": {
  "status": "proved",
  "note": "Both as a statement about the normal matrix (no oracle) and about fit_regional_flow (oracle contract)."
 },
 "C36": {
  "status": "proved",
  "note": "Every velocity function, every duration and tolerance including NaN and infinities. A start point that is not finite is the only vertex that can be not finite."
 },
 "C37": {
  "status": "proved",
  "note": "Exact arithmetic, finite start point and duration; infinite durations never end by the clock (second theorem)."
 },
 "C38": {
  "status": "proved",
  "note": "For velocity functions that return finite values every step is a full Dormand-Prince step within the bounds. For arbitrary functions a step whose second stage met a non-finite velocity can be accepted too; its estimate and length are still within the bounds (c38_wild_example shows it happens)."
 },
 "C39": {
  "status": "partial",
  "note": "Refuted as stated: with tol or maxstep below about the machine epsilon the step sizes shrink geometrically and even standing water is not traced to the end. The partial theorem proves termination for every bounded velocity function, every duration, every tol > 2^-52/0.9^5 and maxstep > 2^-52/0.9, in exact arithmetic. It is extended to every velocity of linear growth, which covers the program's own confined velocities without wells (not bounded); see C97 for wells. Also refuted in binary64: with a longest step of 2^-54 the clock stops."
 },
 "C40": {
  "status": "partial",
  "note": "Refuted: the property is false of the code. A NaN velocity makes the step size NaN and the loop runs for ever; the second theorem shows it with the drivers' own velocity function next to an injection well. Also refuted in binary64, with a well that is not pumped at all on the path of a uniform flow."
 },
 "C42": {
  "status": "proved",
  "note": "All rooted trees up to order 5 are enumerated (completeness proved) and checked in rational arithmetic; the constants of the program are tied to the tableau by c42_constants and by dp_step_finite, which is used in every other theorem about steps."
 },
 "C44": {
  "status": "proved",
  "note": "The derivatives of the flow are given by flow_derivative, proved from the differential equation."
 },
 "C48": {
  "status": "proved",
  "note": "The location claim is also proved in any arithmetic, including binary64 (C48_any_arithmetic). C48_used is for non-negative deviations."
 },
 "C49": {
  "status": "proved",
  "note": "In exact arithmetic."
 },
 "C50": {
  "status": "proved",
  "note": "For lists with non-negative deviations that are filtered without an exception; C50_unique adds that the minimum is attained only once."
 },
 "C51": {
  "status": "proved",
  "note": "In any arithmetic, including binary64."
 },
 "C52": {
  "status": "partial",
  "note": "Refuted: only consecutive observations are merged, so the same location before and after another one is returned twice. Partial theorems: neighbours in the result are at least 1 apart; if equal locations are adjacent in the input, the returned locations are distinct."
 },
 "C53": {
  "status": "partial",
  "note": "Refuted: two observations of deviation 0 at one place raise ZeroDivisionError. Partial theorem: the exact exceptions, which need an observation of deviation 0."
 },
 "C54": {
  "status": "partial",
  "note": "Refuted: the distance below which observations are merged is 1.0 in any unit. Partial theorem: the result rescales if no distance between observations crosses 1."
 },
 "C75": {
  "status": "proved",
  "note": "For tables whose entries are finite or NaN. C75_infinite_example: with infinite entries the mean can be NaN."
 },
 "C55": {
  "status": "proved",
  "note": "Exact characterisation; a pair or triple with an entry that is not a number gives False or TypeError, never True."
 },
 "C56": {
  "status": "partial",
  "note": "Refuted: in binary64 the triple (0.2, 0.2, 0.2), with bounds 0.2 and 0.2, has mean 0.2 + 2^-55; the pair (1.5*2^1023, 1.5*2^1023) has an infinite mean; the pair (-inf, inf), accepted for a discharge, has mean NaN. What holds. In exact arithmetic: every accepted number or tuple whose entries do not contain both infinities. In binary64: pairs below 2^1022 in size; triples stay within every bound whose triple is a binary64 number (0 and 1, so porosities are safe), and leave the range of positive entries by at most a part in 2^51."
 },
 "C57": {
  "status": "proved",
  "note": "For every random source with numpy's documented supports; numpy's formulas meet the contract for finite parameters (c57_satisfiable). An accepted triple with an infinite end makes those formulas return NaN (c57_infinite_example)."
 },
 "C58": {
  "status": "partial",
  "note": "Refuted: a triple with equal ends and a pair with an infinite end are accepted and raise when sampled, and a list is accepted and returned unsampled. The partial theorem says exactly which accepted values are sampled."
 },
 "C59": {
  "status": "proved",
  "note": "Exact and binary64 arithmetic. The deterministic driver has no random source among its arguments; C59_only_means says it depends on the distributions through their means only."
 },
 "C60": {
  "status": "proved",
  "note": "Every random source, every generator of coefficients; exact arithmetic, and binary64 up to 2^53 realizations. For a positive number of realizations (the stochastic driver is called with more than 1, C66)."
 },
 "C61": {
  "status": "partial",
  "note": "Refuted: the coefficients come from np.random.default_rng(), seeded by the operating system. For every generator of coefficients that can produce any six numbers, two entropies give different fields from the same inputs and the same state of numpy's global generator. Partial theorems: it would hold if the coefficients did not use fresh entropy; with constant distributions the global generator has no influence at all."
 },
 "C62": {
  "status": "partial",
  "note": "Refuted: stochastic.py logs 2(A+B), deterministic.py logs -2(A+B). They agree exactly when A+B=0."
 },
 "C77": {
  "status": "proved",
  "note": "Added with the model: the iteration budget of the model's loops has no influence on any result."
 },
 "C69": {
  "status": "partial",
  "note": "Refuted: the property is false of the code for every field of positive total weight; the row for p reports the first node whose probability is at most p, one cell too many, and reports a single cell when every node exceeds p. The partial theorem gives every row exactly."
 },
 "C71": {
  "status": "proved",
  "note": "Exact arithmetic. In binary64 np.linspace rounds differently from xmin + j*dx."
 },
 "C72": {
  "status": "partial",
  "note": "Refuted: the except clause names a module that is not imported, so a map with one dry location fails with NameError. The partial theorem: the map is drawn exactly when no grid location is dry."
 },
 "C78": {
  "status": "partial",
  "note": "Refuted: when every node is captured the drawn slice ends at index 1, so the curve is missing; a field reached by two tracks is given. The partial theorems give the slice exactly and show that nothing is missing when some node has probability 0."
 },
 "C73": {
  "status": "proved",
  "note": "pickle and bz2 are a codec assumed to decode what it encoded (faithful)."
 },
 "C74": {
  "status": "partial",
  "note": "Refuted: the file name has the time to the second only, so a second run archived within the same second replaces the first archive. The partial theorems: names differ exactly when the second differs, and an archive stays readable while its second does not recur."
 },
 "C79": {
  "status": "proved",
  "note": "Interruption leaves an arbitrary prefix of the file being written."
 },
 "C63": {
  "status": "partial",
  "note": "Refuted: validation accepts porosity, conductivity or thickness 0 and observation deviation 0; witnesses give an infinite velocity and rows with NaN and inf. The partial theorem: with positive finite parameters and deviations and heads above the base, the rows are finite, and velocities away from wells are finite or AquiferError is raised."
 },
 "C64": {
  "status": "partial",
  "note": "Refuted for nrealizations, which is never checked: a float fails later with ValueError, anything else that is no int with TypeError, after the banner was printed. For all other arguments: validation accepts exactly the documented values (c64_accepts), every other value raises AssertionError before any effect (c64_rejects)."
 },
 "C65": {
  "status": "partial",
  "note": "Refuted: the default smooth=0 does not pass the check smooth > 0, so every call that relies on the defaults raises AssertionError. The partial theorem: with any positive smooth the other defaults are accepted."
 },
 "C66": {
  "status": "proved",
  "note": ""
 },
 "C67": {
  "status": "partial",
  "note": "Refuted: oneka returns None. The partial theorem: whenever it completes, the field was computed by a driver and is in the archive."
 },
 "C80": {
  "status": "proved",
  "note": "Drawing itself is not modelled; the events record the data that is drawn."
 },
 "C81": {
  "status": "proved",
  "note": "The data sets are transcribed from the text of data/*.py by tools/gendata.py."
 },
 "C82": {
  "status": "proved",
  "note": "In exact arithmetic, for any linear algebra, generators and archive that meet their contracts. NoFuel stands for a loop that does not end (see C39, C40)."
 },
 "C83": {
  "status": "proved",
  "note": "Exact arithmetic; numpy.linalg, the random generator (documented range, finite input) and multivariate_normal (six finite numbers) are oracles under stated contracts. A run that returns is assumed: termination of the traces is C39/C40."
 },
 "C84": {
  "status": "proved",
  "note": "Exact arithmetic with the real exponential; the weights of scipy.ndimage.gaussian_filter are transcribed from its documentation and source."
 },
 "C85": {
  "status": "proved",
  "note": ""
 },
 "C86": {
  "status": "proved",
  "note": ""
 },
 "C87": {
  "status": "partial",
  "note": "Refuted: the area is divided with // (visualize.py:389), so it is shown in whole acres, and areas below one acre stand at 0, which the logarithmic axis cannot show (C87_refuted: no point of the plot is visible). C87_whole_acres_partial and C87_small_partial say exactly what is drawn."
 },
 "C88": {
  "status": "partial",
  "note": "Refuted: class Model has no method compute_backtrack, so the call raises AttributeError for every model and every positive number of rays. C88_pieces_partial: given an object that computes tracks, the pieces leave out the locations at whole years. C88_rays_partial: which rays are computed, and that an AquiferError ends only its own ray."
 },
 "C89": {
  "status": "proved",
  "note": "IEEE binary64 for every libm. The hypotheses (dyadic, in_range) are met by the shipped settings: whole spacings and binary64 coordinates; C89_decimal shows that a spacing of 0.1 breaks the conclusion."
 },
 "C90": {
  "status": "proved",
  "note": "IEEE binary64 for every libm; C90_example shows that the computed value can be smaller than every true squared distance."
 },
 "C91": {
  "status": "proved",
  "note": "IEEE binary64 for every libm; units at most 2^147. C91_rasterize has compact (the grids span at most 2^53 units) as a hypothesis on the resulting field; C91_rasterize_total needs no such hypothesis when coordinates stay within 2^52 units, and then the call returns."
 },
 "C92": {
  "status": "proved",
  "note": "IEEE binary64 for every libm. Both drivers register the weight 1.0 (deterministic.py:233, stochastic.py:265), which meets the hypothesis with unit 1 for up to 2^53 realizations."
 },
 "C93": {
  "status": "proved",
  "note": "IEEE binary64 for every libm whose fifth root returns binary64 values (and, for the exact part, never a negative one). C93_past: 25.2 days (53 digits) is overshot by one unit in the last place, so the 52-digit hypothesis and the allowance of one number cannot be dropped. C93_program instantiates both parts for the program's own start points and velocity functions, for every model object of binary64 numbers."
 },
 "C94": {
  "status": "proved",
  "note": "Real arithmetic; Riemann integrals of the standard library. k is 2*pi times the program's constant 0.15915494309189535."
 },
 "C95": {
  "status": "proved",
  "note": "IEEE binary64, any random source, linear algebra and elementary functions; up to 2^53 realizations, spacing and target on a grid of units 2^e and all track points within 2^52 units, consecutive points equal or 2^-200 apart. The slack in 'near' is that of C91."
 },
 "C96": {
  "status": "proved",
  "note": "Any arithmetic, generator, multivariate normal source and linear algebra. numpy's global generator is a state passed from draw to draw; the multivariate normal draw is seeded by one entropy value per call."
 },
 "C97": {
  "status": "proved",
  "note": "Exact real arithmetic, tolerance above 2^-52/0.9^5 and longest step above 2^-52/0.9 (see C39), any model with positive conductivity, porosity and thickness, any wells and regional flow, confined or not."
 },
 "C98": {
  "status": "proved",
  "note": "Format codes d, 03d, .nf, .ne, with + and commas, and repr of binary64 numbers. n >= 1 decimals for the exponent codes, nonzero numbers there. The model of the conversions was compared with CPython's on 570 numbers and five codes."
 },
 "C99": {
  "status": "proved",
  "note": "Text of the table for given statistics; that the statistics are those of the columns is C75."
 },
 "C100": {
  "status": "partial",
  "note": "Refuted: duration, base, buffer, spacing, umbra, tol and maxstep are printed with two decimals, so that calls with tol = 0.001 and tol = 0.002 have the same log. Proved for validated calls: the same log implies the same project name, run time, target, npaths, nrealizations, distributions, smooth, confined, wells and observations, and the other arguments within 0.01; and a validated call is logged without an exception exactly if nrealizations is an integer and the integers among the arguments printed with two decimals are in the range of floats."
 },
 "C101": {
  "status": "proved",
  "note": "Any arithmetic on binary64 numbers (the text of numbers is that of C98)."
 },
 "C102": {
  "status": "proved",
  "note": "binary64 numbers; the widths of the table hold for probabilities up to 1, areas below 10^12 and acres below 10^9. The texts are those of the drivers and of oneka for given values; which realizations are run is C60 and C83, what the table contains is C69."
 },
 "C103": {
  "status": "partial",
  "note": "Refuted: for every tolerance, maximum step and bound there are a confined aquifer without wells and a start point from which one accepted step ends farther than the bound from the particle (exact arithmetic). What holds: an accepted step of at most half the time scale of the flow ends within half the tolerance of the particle that leaves its first vertex, and along a trace of such steps the errors add up to half the tolerance per step times the spreading of the flow (c103_local_partial, c103_trace_partial; confined, no wells)."
 },
 "C104": {
  "status": "proved",
  "note": "Exact real arithmetic; the time step H is that of the steps the trace took, which the tolerance does not bound (C103). Also for any affine velocity function."
 },
 "C105": {
  "status": "proved",
  "note": "Exact real arithmetic, confined flow. The particle (the solution of the differential equation) is given; the bound is of the first order in the longest time step, while that of C104 is of the fifth."
 },
 "C106": {
  "status": "proved",
  "note": "Exact arithmetic, confined aquifer, duration 0 or more. The longest time step H and the path enter as hypotheses: the path of the water is one that moves with the velocity (C107 proves its existence from conditions on the computed tracks) and keeps the distance 2 rho from the wells. The second half needs the node to be in the bounding box of the track, because tracks mark only nodes of the grid they have been extended to (C12, C83). Example: the deterministic run and a stochastic run of C83 with E = 1/5."
 },
 "C107": {
  "status": "proved",
  "note": "Exact arithmetic, confined aquifer, duration 0 or more. The conditions are on the computed vertices and times only: that they keep 2 rho from the wells and that the steps are short enough. The existence of the path is proved by successive approximation for the velocity changed near the wells, where neither the path nor the trace comes; it is unique among the paths that do not meet a well. Examples: a trace beside a pumped well; the deterministic and the stochastic run of C83, with E = 0."
 },
 "C108": {
  "status": "proved",
  "note": "binary64; integers among the arguments convert to floats. The messages are those at level INFO and higher (DEBUG messages reach no handler). C108_stochastic_raises and C108_deterministic also say what a driver that raises has said before. C108_same ties the transcript to the model of the numbers: same result, same figures and archive in the same order."
 },
 "C109": {
  "status": "partial",
  "note": "Refuted: capturezone.py uses the logger oneka.capturezone while runme.py attaches its handler to the logger Oneka. C109_first, for all runs in a new process: the file gets exactly the messages of Oneka, once and in order; the warnings of the traces go to stderr and to no file. logging's hierarchy, levels and last-resort handler are modelled after its documentation."
 },
 "C110": {
  "status": "partial",
  "note": "Refuted for a file of a call that is not the last one of its process: main never removes its handler. C110_calls says what each file holds for any number of calls at different seconds, C110_last that the file of the last (or only) call is right, C110_same_second what happens when two calls share their second."
 },
 "C111": {
  "status": "partial",
  "note": "Refuted for negative durations, which oneka accepts. C111_truth: for every trace that ends early, in binary64, t < duration has the same truth value as 0 < duration."
 },
 "C112": {
  "status": "proved",
  "note": "C112_zones for zones traced in any way, C112_stochastic and C112_deterministic for the runs, C112_centre for the nine nodes around the well. Real arithmetic."
 },
 "C113": {
  "status": "proved",
  "note": "Real arithmetic; uniform numbers and entropies are equally likely members of finite lists of any length and content, independent between realizations, and every run returns. The two probabilities that enclose the mean differ only for points farther outside the bounding box of the traced points than the spacing (umbra larger than the spacing): C113_bias bounds that bias, C113_centre excludes it around the well."
 },
 "C114": {
  "status": "proved",
  "note": "Same setting as C113. C114_above and C114_below are one-sided and free of the covering probability; C114_converges is two-sided."
 },
 "C115": {
  "status": "proved",
  "note": "C115_stochastic and C115_deterministic for the drivers (equality of results, raised errors included), C115_filter for the observations, C115_nodes for reading the moved field, C115_run for whole runs. Real arithmetic; in binary64 the moved coordinates are rounded."
 },
 "C116": {
  "status": "proved",
  "note": "C116_realization: exact equality for one realization, errors included. C116_deterministic: the runs that return. C116_stochastic: generators that draw alike for each well (draw_alike); C116_constant: any generator, wells with known discharges. C116_run: whole runs. Real arithmetic; in binary64 sums over wells depend on the order in the last digits."
 },
 "C117": {
  "status": "partial",
  "note": "Refuted: filter_obs merges only neighbours in the list (utilities.py:112-129), so C117_refuted has one list whose run returns and a reordering of it whose run ends with AssertionError (six observations retained instead of seven). C117_filter_partial and C117_run_partial: the claim holds for observations that are at least 1 m apart (whole well-posed runs, both drivers)."
 },
 "C118": {
  "status": "proved",
  "note": "Exact real arithmetic, the velocity of compute_velocity (not the confined shortcut), whether the aquifer is confined or not from place to place. The particle is given, as in C105; that the water stays s deep is a condition on the potential along its path. The path of the example is explicit: the 3/2 power of the potential grows evenly."
 },
 "C119": {
  "status": "partial",
  "note": "Refuted: the repr of a field with grids has nine arguments and the constructor takes at most four (C119_field_refuted: TypeError), the str of an empty field builds a field of nine nodes around the origin (C119_empty_refuted), and the text of a model has no wells, which have no default (C119_model_refuted: TypeError). What holds: a text is read as one call at most, the repr of an empty field gives it back, and two texts are equal exactly if the attributes shown are equal. numpy's texts of the two arrays in the str of a field are arguments."
 },
 "C120": {
  "status": "partial",
  "note": "Refuted: probabilityfield.py:220 lacks the f of an f-string, so the first grids of a field are announced with the text {self.nrows}, {self.ncols} (C120_first_refuted). C120_size_partial: a field that has grids announces each change of size once, with the new size."
 },
 "C121": {
  "status": "partial",
  "note": "Refuted: smooth = inf passes the validation, and every stochastic run with it ends with OverflowError in gaussian_filter after all realizations, before the field is archived (C121_infinite_refuted, C121_lost_refuted). What holds: with a finite smooth drawing raises nothing (C121_outcome_partial), and the figures of a run that returns are those claimed. matplotlib is not modelled; memory for the weights of a huge smooth is not bounded."
 },
 "C122": {
  "status": "proved",
  "note": "Exact arithmetic, duration 0 or more. Unlike C118 no path of the water is given: it is constructed from conditions on the computed vertices and shown to be the only one. The longest time step H and the depth s enter as conditions on the computed tracks. Examples: the sloping aquifer of C118, and a deterministic and a stochastic run with confined = False."
 },
 "C123": {
  "status": "proved",
  "note": "Binary64. The numbers of the model and the point are at most 2^200 in size, thickness and porosity at least 2^-200, no well nearer than 2^-200, at most 10^12 wells. The error is relative to the sum of the absolute values of the parts, not to the result, which may cancel. Head and potential (logarithm) are not covered."
 },
 "C124": {
  "status": "proved",
  "note": "Binary64 trace against the exact path of the water. c124_water is for any velocity function with a known error, c124_confined for the velocity of a confined aquifer with its error from C123. The longest time step, the size of the coordinates and the distance from the wells enter as conditions on the computed trace. Unconfined aquifers only through c124_water."
 },
 "C125": {
  "status": "proved",
  "note": "Binary64 runs of both drivers. Conditions on the grid as in C95 (coordinates in units of a power of two), conditions on the traces as in C124, collected in a chart. c125_confined gives the chart conditions on the velocity for confined aquifers; c128_charted does for the others. The random draws and the least squares solution are whatever was returned."
 },
 "C126": {
  "status": "proved",
  "note": "The accuracy of the logarithm of the C library is a hypothesis (log_within), with any error up to 1/1000; c126_example gives one. The numbers of the model are at most 2^200 in size, the point is no nearer than 2^-200 to a well, and there are at most 10^12 wells."
 },
 "C127": {
  "status": "proved",
  "note": "Conditions as in C126, and the potential must be positive and a hundred times as large as the bound of C126 for its error."
 },
 "C128": {
  "status": "proved",
  "note": "c128_unconfined is C124 without the condition that the aquifer is confined; c128_charted gives the conditions that C125 puts on a capture zone, for such aquifers. The accuracy of the logarithm is a hypothesis. The example has no well, because an accurate logarithm that Coq can run is not at hand."
 },
 "C129": {
  "status": "proved",
  "note": "Format codes of the forms w.nf and w.ne. c129_sign_example shows that the condition on the widths is needed: the code reserves the width of the text of 1, so a negative number in a column 9.4e makes its line longer."
 },
 "C130": {
  "status": "partial",
  "note": "Refuted: the path of the log file and of the archive has a backslash. On Windows without a directory logs, which a new copy of the repository lacks (.gitignore names it), every run ends with FileNotFoundError before oneka is called (C130_windows_refuted; the exception is represented by ValueError); elsewhere the files are in the working directory (C130_posix_refuted). A data module that imports a missing module is itself reported as missing (C130_blame_refuted). What holds: C130_runs_partial, C130_absent, C130_lacking (which exceptions a module with missing names leads to, and what is left behind), C130_leftover, C130_archive, C130_script, C130_profile; C130_data for the data sets that come with the program."
 },
 "C131": {
  "status": "proved",
  "note": "Axes and probabilities: C131_axes. The area of a deterministic capture zone: C131_area, exact when the area of a cell times the number of captured nodes needs no more than 53 bits on a common unit. The curve of areas: C131_impact, and the points of it that are drawn: C131_points (C78 says which they are in exact arithmetic). Spacing and edges are dyadic as in C89, weights as in C92."
 },
 "C132": {
  "status": "partial",
  "note": "Refuted: np.linspace(0.05, 0.95, 19) yields values below 0.4, 0.45, 0.5, 0.55 and 0.8, so that a node whose probability is exactly one of these is passed over and the row shows a smaller probability and the area of more nodes (C132_refuted; in C132_example the row for 0.5 shows 0.000 and 204 m^2 instead of 0.500 and 4 m^2). What holds, for total weights of up to 2^40 units: C132_rows_partial gives the position of each row; it is that of exact arithmetic except for these ties."
 },
 "C133": {
  "status": "proved",
  "note": "C133_start bounds the distance of each binary64 start point from the exact one, for cos and sin correct to within e; the bound on np.pi is proved from the Machin series of the standard library. C133_outside: every path starts at least half a meter outside the well. C133_example exhibits a C library that meets the contract."
 }
}