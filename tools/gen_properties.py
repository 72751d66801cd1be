#!/usr/bin/env python3
"""Generates /verif/properties.jsonl (one JSON object per line)."""
import json, os
P = []
def p(id, title, statement, quantifier, why, anchors):
    P.append(dict(id=id, title=title, statement=statement, quantifier=quantifier,
                  why_tests_cant=why, anchors=anchors))
RC="pyzeal/utils/containers/rounding_container.py"; PC="pyzeal/utils/containers/plain_container.py"
CF="pyzeal/utils/factories/container_factory.py"; RF="pyzeal/rootfinders/rootfinder.py"
PF="pyzeal/rootfinders/parallel_finder.py"; SH="pyzeal/algorithms/simple_holo.py"
SN="pyzeal/algorithms/simple_holo_newton.py"; PH="pyzeal/algorithms/polynomial_holo.py"
CP="pyzeal/algorithms/wrappers/classical_polynomial.py"; NG="pyzeal/algorithms/newton_grid.py"
AE="pyzeal/algorithms/estimators/argument_estimator.py"; EC="pyzeal/algorithms/estimators/estimator_cache.py"
SE="pyzeal/algorithms/estimators/sum_estimator.py"; QE="pyzeal/algorithms/estimators/quad_estimator.py"
SL="pyzeal/utils/service_locator.py"; LW="pyzeal/utils/lambda_wrapper.py"; JH="pyzeal/settings/json_helper.py"
JC="pyzeal/settings/json_core_settings.py"; JS="pyzeal/settings/json_settings_service.py"; RS="pyzeal/settings/ram_settings_service.py"
CC="pyzeal/cli/cli_controller.py"; CPA="pyzeal/cli/cli_parser.py"; CM="pyzeal/cli/__main__.py"
IH="pyzeal/plugins/installation_helper.py"; PL="pyzeal/plugins/plugin_loader.py"; PP="pyzeal/plugins/pyzeal_plugin.py"
IN="pyzeal/utils/initialization_handler.py"; AF="pyzeal/utils/factories/algorithm_factory.py"; EF="pyzeal/utils/factories/estimator_factory.py"
LM="pyzeal/pyzeal_logging/log_manager.py"; LO="pyzeal/pyzeal_logging/loggable.py"
hist="The claim is about every sequence of API calls; a test runs finitely many of them."

p("C01","Stored roots are always rounded to the container's current precision",
 "After any sequence of addRoot/removeRoot/clear/registerFilter/unregisterFilter calls on a new RoundingContainer, every pair returned by getRoots/getRootOrders has a value that equals its own rounding to the current precision (at most p0 decimals in the real and p1 decimals in the imaginary part).",
 "all histories of container operations, all roots, orders, precisions and filter predicates",hist,[RC+":RoundingContainer.addRoot",RC+":roundRoot"])
p("C02","No duplicate (value, order) pairs; multiplicity does matter",
 "The container never reports the same (rounded value, order) pair twice, whatever the log level. Contrary to the class docstring ('multiplicity is not taken into account'), two adds of the same value with different orders are both kept: the docstring claim is violated, and it does hold whenever all adds of a value carry the same order.",
 "all histories; all log levels",hist,[RC+":RoundingContainer",RC+":addRoot"])
p("C03","Exact contents of a RoundingContainer after any history",
 "The reported set is exactly the set of roundings of those accepted adds that are not followed by a clear, a successful removal of the same rounded pair, or an accepted add with a different precision; the reported precision is that of the last accepted add (or the initial one). In particular a history whose adds are all rejected leaves roots of an older precision in place.",
 "all histories; all roots and filters",hist,[RC+":addRoot",RC+":removeRoot",RC+":clear"])
p("C04","getRoots and getRootOrders are parallel vectors",
 "In every state, whatever order the underlying set is iterated in, getRoots and getRootOrders have the same length and zipping them yields exactly the stored (value, order) pairs, each once.",
 "all states, all iteration orders of the set","Set iteration order depends on hashes and insertion history; a test sees one order.",[RC+":getRoots",RC+":getRootOrders",PC+":getRoots",PC+":getRootOrders"])
p("C05","Filters guard every later add, and only later adds",
 "An add is accepted iff every currently registered filter accepts it; a rejected add changes nothing observable (roots, orders, precision, filters); re-registering a key replaces the predicate. Registering a filter does not re-examine stored roots, so the protocol's 'should clear its internal root buffer' consistency promise is violated: a state exists whose stored root fails a registered filter; if filters are registered while the container is empty and never changed, every stored root passed all filters when added.",
 "all histories, all filter predicates",hist,[RC+":registerFilter",RC+":unregisterFilter","pyzeal/utils/containers/root_container.py:registerFilter"])
p("C06","removeRoot removes exactly the rounded pair and reports truthfully",
 "removeRoot(r) returns True iff the rounding of r at the current precision with the same order is stored; afterwards that pair is absent and every other pair is unaffected; it changes neither the precision nor the filters.",
 "all states and roots",hist,[RC+":removeRoot"])
p("C07","Log level never influences results",
 "Two containers fed the same history under arbitrary (even changing) log levels report the same roots, orders and precision, although the duplicate check is only executed when INFO is enabled.",
 "all histories and all sequences of log levels","The branch is only taken at some log levels; a test fixes one level.",[RC+":addRoot"])
p("C08","Rounding is accurate, idempotent and order preserving",
 "Rounding to p decimals moves a coordinate by at most 10^-p/2, is idempotent, is monotone, returns a multiple of 10^-p, is the identity on such multiples and resolves exact ties to the even multiple; two coordinates more than 10^-p apart never collide.",
 "all coordinates and all numbers of decimals","Infinitely many inputs, ties included.",[RC+":roundRoot"])
p("C09","PlainContainer is a FIFO log without mutation",
 "Between getters, PlainContainer returns exactly the roots that were added, in order, none lost or duplicated, however getters and adds interleave; removeRoot always returns False and changes nothing; clear, registerFilter and unregisterFilter raise NotImplementedError and change nothing.",
 "all interleavings of operations, including roots put into the shared queue by other processes",hist,[PC+":PlainContainer"])
p("C10","Predefined filters decide exactly what they document",
 "ZERO_IN_BOUNDS accepts iff the root lies in the closed rectangle of the context; FUNCTION_VALUE_ZERO with threshold t accepts iff |f(root)| < 10^-t; registering a predefined filter again replaces the earlier threshold; after registerDefaultFilters every stored root had |f| < 10^-3 at, and lay inside, the rectangle it was added with. The context's own `threshold` field has no influence.",
 "all functions, roots, rectangles, thresholds and histories","Ranges over all user functions and rectangles.",[CF+":_func_value_zero",CF+":_zero_in_bounds",CF+":registerDefaultFilters"])
p("C11","Domain desymmetrization encloses the request with a fixed small margin",
 "For any two corners given in any order, desymmetrizeDomain returns ranges x1-d, x2+2d and y1-3e, y2+4e (d=10^-p0, e=10^-p1, x1<=x2, y1<=y2 the sorted inputs): the result strictly contains the request, exceeds it by at most the stated margins, does not depend on the order of the end points, and is never centred on the requested rectangle's centre.",
 "all real inputs and precisions","Infinitely many inputs.",[RF+":desymmetrizeDomain"])
p("C12","Serial searches accumulate at equal precision and restart on a precision change",
 "Calling calculateRoots repeatedly on one finder with the same precision only ever adds roots (results of earlier calls stay); a later call with a different precision whose algorithm reports at least one accepted root discards all earlier roots; if it reports none, the earlier roots (with earlier rounding) are still reported.",
 "all sequences of calculateRoots calls, all algorithms",hist,[RF+":calculateRoots",RC+":addRoot"])
p("C13","Roots reported by a filtered serial finder are near the request",
 "With default filters and automatic filtering, every root reported after one calculateRoots call on a fresh finder lies within the requested rectangle enlarged by the desymmetrization margin plus half a unit of the last reported decimal, and comes from a point where |f| < 10^-3.",
 "all functions, rectangles, precisions, algorithms","Ranges over all functions and algorithm outputs.",[RF+":calculateRoots",CF+":registerDefaultFilters"])
p("C14","Interrupting a serial search loses nothing already found and invents nothing",
 "If the search is interrupted (KeyboardInterrupt) after any prefix of the algorithm's reports, the container holds exactly what a complete run restricted to this prefix would hold, and calculateRoots returns normally. An interrupt that arrives while a filter of the container is evaluated ends the search the same way, as if it had come just before that candidate, and never escapes from calculateRoots.",
 "all interruption points","The interrupt may arrive anywhere.",[RF+":calculateRoots"])
p("C15","Parallel job decomposition tiles the search domain",
 "For any domain and worker count n>=1 createRootJobs yields exactly n*n jobs whose rectangles cover the domain, overlap only on edges, lie inside it, have equal size and carry the same precision; with the cell (i,j) at list position i*n+j.",
 "all rectangles and all worker counts","Unbounded number of workers and all rectangles.",[PF+":createRootJobs"])
p("C16","Parallel results do not depend on scheduling",
 "Whatever the order in which workers put roots in the shared queue, the set of (root, order) pairs reported by the parallel finder is the same, namely the accepted rounded roots of all jobs' reports.",
 "all interleavings of worker outputs","Schedules cannot be enumerated by tests.",[PF+":calculateRoots",PC+":PlainContainer"])
p("C17","Serial and parallel finders round to different precisions",
 "Documented behaviour is the same precision for both. The code violates it: the serial finder stores roots rounded to p+1 decimals, the parallel finder to p decimals, so the two report different values for the same algorithm output; they agree up to 0.55*10^-p in each coordinate for each commonly accepted root.",
 "all precisions and roots","Agreement must hold for every root.",[RF+":calculateRoots",PF+":calculateRoots"])
p("C18","Interrupting a parallel search reports a subset",
 "If the pool is interrupted at any time, the parallel finder reports exactly what draining the queue contents at that time gives: a subset of the uninterrupted result (same precision), and no root that no worker reported.",
 "all interruption points and schedules","Interrupts and schedules cannot be enumerated.",[PF+":calculateRoots"])
p("C19","Worker sample budget",
 "With c CPUs and requested numSamplePoints n>0 every parallel worker gets floor(n/c)+1 points, so all c workers of a row together have at least n+1 > n points and at most n+c; a missing or zero budget leaves the algorithm's own default (which is 50 for Newton grid).",
 "all n, c","Arithmetic for all n, c.",[PF+":__init__",AF+":getConcreteAlgorithm"])
p("C20","Adaptive refinement always terminates, with an explicit depth bound",
 "For every function, every (even adversarial) estimator answer and every start rectangle with tolerances >0, the bisection stops (in exact arithmetic): if a halvings bring the width and b halvings the height strictly below the tolerance, the recursion depth is at most a+b+1 levels, at most 2^(a+b) rectangles are finally handled and fewer than 2^(a+b+1) estimates are made, for all three algorithm variants. A search that ends does not depend on the recursion limit.",
 "all estimator behaviours, rectangles, tolerances","Termination for all behaviours.",[SH+":decideRefinement",SN+":decideRefinement",PH+":decideRefinement"])
p("C21","Visited leaves tile the search rectangle",
 "The rectangles that are discarded, reported or handed to Newton/polynomial solvers have disjoint interiors, cover the search rectangle exactly, and their areas sum up to its area: no region is skipped or searched twice.",
 "all estimator behaviours and rectangles","Must hold for all refinement trees.",[SH+":decideRefinement",SH+":calcRoots"])
p("C22","Each reported root is the centre of a sub-tolerance rectangle with the rounded winding number as order",
 "Every root the simple argument algorithm reports (other than zeros hit on contour sample points) is the centre of a sub-rectangle of the search domain with both sides below the tolerance, its order is the nearest integer to the estimated argument/2pi and is >= 1.",
 "all estimator behaviours and rectangles","All refinement trees.",[SH+":getRootFromRectangle",SH+":decideRefinement"])
p("C23","Correctness relative to the estimator: every zero found, nothing invented, orders right",
 "If the estimated argument change is off by less than 0.2 turn from the number of zeros in each visited rectangle (and zeros avoid rectangle borders), then the simple argument algorithm reports exactly one root per final rectangle containing zeros; every zero lies within half the tolerance (per coordinate) of a reported root, every reported root has a zero within half the tolerance, each reported order is the number of zeros in its rectangle, and orders sum to the number of zeros in the domain.",
 "all finite multisets of zeros, all rectangles, all estimators meeting the error bound","Ranges over all functions.",[SH+":calcRoots",SH+":decideRefinement",SH+":getRootFromRectangle"])
p("C24","The decision thresholds are tight",
 "A rectangle is discarded exactly if the estimate is below 0.8 turn, otherwise reported if it is below the tolerance and bisected if not. So one with k>=1 zeros is never discarded if the estimate errs by at most 0.2 turn, and an empty one always if it errs by less than 0.8 turn; and for each bound there is an estimator just beyond it with which the algorithm loses a zero, respectively reports a spurious root of order 1.",
 "all estimates","Real-valued range.",["pyzeal/algorithms/constants.py:TWO_PI",SH+":decideRefinement"])
p("C25","Newton-assisted variant: reports, orders and fallback",
 "Roots reported by the Newton variant are either centres of sub-tolerance rectangles (order = rounded winding number) or results of a secant/Newton iteration started in a rectangle with winding estimate between 0.8 and 1.3 turns and sides below 0.1, always with order 1; a non-converging iteration (one that raises a RuntimeError, including its subclasses NotImplementedError and RecursionError) reports nothing for that rectangle and the search goes on elsewhere (a zero can be lost: violated completeness), other exceptions of the iteration propagate; other rectangles behave as in the simple algorithm.",
 "all solver outcomes, estimator behaviours, rectangles","All solver behaviours.",[SN+":decideRefinement"])
p("C26","Polynomial variant: local degree 1..3 and exact recovery from exact moments",
 "The associated polynomial is only built when the winding estimate is between 0.8 and 3.4 turns, its degree is 1, 2 or 3; with exact moments its roots are exactly the zeros (with multiplicities) in the rectangle; more than 3.4 turns leads to subdivision.",
 "all estimator behaviours; all multisets of up to 3 zeros","Ranges over all zeros.",[PH+":decideRefinement",PH+":coefficientsFromMoments"])
p("C27","Newton identities: coefficients from moments",
 "For every finite list of zeros z1..zn (in any field of characteristic zero) coefficientsFromMoments applied to the power sums p1..pn gives the coefficient list (constant term first, leading coefficient 1) of prod(x-zi).",
 "all n, all lists of zeros","Unbounded degree, all zeros.",[PH+":coefficientsFromMoments"])
p("C28","Grouping nearly equal polynomial roots conserves count and separates the rest",
 "Grouping assigns each polynomial root to exactly one reported root within the tolerance in both coordinates; orders are positive and sum to the degree; representatives are themselves input roots and pairwise not within tolerance of each other; if the roots fall into clusters narrower than eps and separated by more than eps the grouping is exactly the clusters.",
 "all root lists and tolerances","All lists.",[CP+":getRoots"])
p("C29","Progress accounting",
 "Desired: progress advanced over a complete run equals the total domain area. For discarded rectangles the advance equals their area, but for every reported root of the simple algorithm the advance is 0 (bug: .imag of a float), so the total advance equals domain area minus the area of the reported leaves; it never exceeds the total and equals it iff no leaf is reported (violated otherwise). In NewtonGrid the very first task (id 0) is never advanced.",
 "all runs","All runs.",[SH+":getRootFromRectangle",NG+":calcRoots","pyzeal/utils/finder_progress.py"])
p("C30","Unsupported configurations fail before any result is produced",
 "Polynomial algorithm without derivative and quadrature estimator without derivative raise ValueError and report no polynomial/quadrature based root; the summation estimator raises NotImplementedError for moments of order >= 1, so the polynomial algorithm combined with the default summation estimator never reports a root via a polynomial, for every input.",
 "all inputs","All inputs.",[PH+":decideRefinement",QE+":calcMomentAlongLine",SE+":genPhiArr"])
p("C31","NewtonGrid starts from its whole grid and reports the limits",
 "NewtonGrid makes one vectorised Newton call whose starting points are exactly the n*n equally spaced grid points of the rectangle (corners included, row by row). If no iteration converges (RuntimeError) nothing is reported; otherwise every limit of a converging iteration is reported with order 0, one report per starting point. (Reporting ONLY the converged limits is what a user expects and is refuted: the last iterates of non-converging starting points are reported too.) Other exceptions propagate.",
 "all n, rectangles, Newton outcomes","All n.",[NG+":calcRoots"])
p("C32","Moment cache is transparent",
 "Within one search, an argument estimator that consults its cache returns, for every rectangle and every history of calcMoment and cache.remove calls, the same moment as one that recomputes all four edges, provided the line estimator is deterministic and antisymmetric under swapping the end points.",
 "all histories of calls and removals",hist,[AE+":calcMoment",EC+":EstimatorCache"])
p("C33","No cache leak between searches",
 "calcRoots resets the estimator cache whenever it is dirty: after any history, a new search starts with an empty moment cache, so its edges are recomputed for the new function.",
 "all histories",hist,[SH+":calcRoots",EC+":reset"])
p("C34","Stored edge moments are antisymmetric",
 "After storing both orientations of an edge (as calcMoment does) a lookup of the swapped end points returns the negated value; in every cache state reachable by moments, removals and resets (with any line estimator) the orientation opposite to a stored edge is either absent (removed) or exactly the negated value.",
 "all histories",hist,[AE+":calcMoment",EC+":store"])
p("C35","EstimatorCache behaves as a finite map keyed by (start,end,order)",
 "retrieve returns the value of the latest store for the key not followed by a remove/reset; remove affects only the given key(s); counters hits+misses equal the number of retrieves at debug level and stay 0 otherwise, and do not influence values; a stored value 0 is retrieved as 0 but counted as a miss and recomputed by calcMoment; calcMoment hands exactly the sides without a known value other than 0 to the line estimator, counter-clockwise, and reports every zero met there.",
 "all histories of cache operations",hist,[EC+":EstimatorCache"])
p("C36","Phase increments along a closed contour sum to an integer number of turns",
 "For any finite cyclic sequence of non-zero function values the sum of principal arguments of consecutive quotients is an integer multiple of 2 pi.",
 "all closed sample sequences","All sequences.",[SE+":genPhiArr",AE+":calcMoment"])
p("C37","The summation is exact once each increment is below half a turn",
 "If the true continuous argument changes by less than half a turn between neighbouring samples, the sum of principal values equals the true total argument change, so the winding estimate is exact; without this bound it may be off by a whole turn (violating example).",
 "all sampled continuous arguments","All sample sequences.",[SE+":genPhiArr"])
p("C38","Phase refinement loop terminates and achieves its bound",
 "The refinement of sample points in the summation estimator stops whenever the search for zero-free samples does (after at most 100 numPts + 3 rounds for functions without zeros); on exit either all increments are below deltaPhi, or the number of sample points exceeded its cap, or the samples at the first large increment are closer than maxPrecision; if no sample was a zero, end points are never changed and samples remain ordered along the line; if one was, the whole array is moved off the line (violated).",
 "all functions and sample settings","All functions.",[SE+":genPhiArr"])
p("C39","Zeros on sample points are reported and avoided",
 "genFuncArr only reports points where the function is exactly 0; the array it returns contains no zero and consists of the uniform samples moved across the line by the least sufficient multiple of 2e-precision; it terminates iff some shift avoids all zeros, and for the zero function it never terminates (violated). A request for the phase sum along a whole line reports nothing but zeros, and all zeros on the uniform sample points of a line for which no samples are stored.",
 "all functions, all sample arrays","All functions.",[AE+":genFuncArr"])
p("C40","Splitting a cached line is additive",
 "If a line is split at a point strictly between two neighbouring cached samples, the phases taken from cache for both parts sum exactly to the phase of the whole line; if the split point is itself a sample the increment at this point is counted twice (violated).",
 "all cached samples and split points","All sample arrays.",[SE+":retrieveCachedHorizontal",SE+":retrieveCachedVertical"])
p("C41","Summation estimator line cache survives reset and ignores the function",
 "Desired: results of a search do not depend on earlier searches. The code violates it: the sample cache of the summation estimator is neither keyed by the function nor cleared by a reset, so a second search with another function over a line with the same start or end point re-uses phases of the first function, and even with the same function every longer line with an already served start gets the shorter line's phase; for lines whose level is not cached the result only depends on the current function.",
 "all histories",hist,[SE+":retrieveCachedHorizontal",SE+":storeCache"])
p("C42","Reversing a line negates its moment",
 "In every state of its caches, the summation estimator's value for b->a is the negative of the value for a->b, for all axis-parallel lines, with the same zeros reported, the same new state and the same exceptions.",
 "all lines, all functions","All lines.",[SE+":calcMomentAlongLine",SE+":retrieveCachedHorizontal"])
p("C43","Invalid estimator requests are rejected without side effects",
 "The summation estimator raises ValueError for lines that are neither horizontal nor vertical, leaving caches unchanged; for orders other than 0 it raises NotImplementedError after every history of requests; a request that raises leaves the caches as they were.",
 "all lines, orders, histories",hist,[SE+":calcMomentAlongLine",SE+":genPhiArr"])
p("C44","Quadrature sampling is nested, bounded and deterministic",
 "The quadrature estimator always works with 2^k+1 samples, 10<=k<=22, terminates whenever the search for zero-free samples does, and merging midpoint samples into a uniform grid gives the uniform grid of twice the resolution. If no sample is a zero, the answer is determined: the loop stops at the first k in 11..22 at which two successive rule values agree up to 1e-3 and uses the earlier one; the answer is this value times the line's direction over i, times 1 for k<=12 but 1-2^(1-k) for larger k (the scaling with sub-grid end points, violating the true length factor). Reversing the line negates it, constant integrands are integrated exactly, and a missing derivative raises ValueError.",
 "all functions, lines and integration rules","All functions.",[QE+":calcMomentAlongLine",QE+":mergeArrays"])
p("C45","ServiceLocator never hands out a wrongly typed service",
 "Whatever registrations were made, tryResolve either returns an instance of the requested type or raises; for a type that is not registered it raises InvalidServiceConfiguration, except that for a type of which None is an instance (object, Optional) it returns None, even if a factory is registered (violated).",
 "all registration histories and requests",hist,[SL+":tryResolve"])
p("C46","Singleton identity and latest registration wins",
 "After registering a singleton every resolve of this type returns this very instance until it is re-registered or the configuration cleared, regardless of transient registrations of the same type; without singleton the latest transient registration is used; registrations of types that are neither the type itself nor one of its (transitive) constructor dependencies have no effect.",
 "all histories",hist,[SL+":registerAsSingleton",SL+":tryResolve"])
p("C47","Sealing freezes the configuration",
 "After seal every register call raises ValueError and no resolve result changes, until clearConfigurations; a second seal raises ValueError; clearConfigurations returns to the empty unsealed state.",
 "all histories",hist,[SL+":seal",SL+":clearConfigurations"])
p("C48","Constructor arguments are bound by precedence: explicit, then resolved or default",
 "When a transient is constructed each declared constructor parameter receives the explicitly passed keyword value if present, else its default value if it has one, else the resolved service of its annotation; undeclared keywords are ignored; if one dependency fails to resolve the whole resolution raises, with InvalidServiceConfiguration if this dependency is unregistered and the ones before it resolve.",
 "all signatures and keyword sets","All signatures.",[SL+":tryResolve"])
p("C49","Acyclic configurations resolve; cyclic ones never do",
 "If the dependency graph of registered transients is acyclic and complete the resolution terminates successfully with bounded depth; a transient depending on itself (directly or through others) without default never resolves, at any recursion depth, but raises; passing the required dependencies explicitly breaks the cycle.",
 "all dependency graphs","All graphs.",[SL+":tryResolve"])
p("C50","LambdaWrapper evaluates the wrapped function, one at a time",
 "Wrapping a function returns a callable with the same values until the next unsafe wrap; in save mode a second wrap raises ValueError and leaves the earlier wrapper intact, so that the first function is evaluated for ever; in non-save mode every earlier wrapper silently evaluates the newest function (violated isolation); functions and derivatives do not interfere; wrapping the wrapper itself only yields RecursionError; in a process which has imported the module anew the unpickled wrapper raises ValueError.",
 "all histories of wrap calls and evaluations",hist,[LW+":LambdaWrapper"])
p("C51","Settings persist across instances and updates touch only one key",
 "After any history of setter calls (accepted or rejected, on any service objects), a newly created settings service reads back the last accepted value for each setting (the first two components of a precision tuple) and the initial value for untouched ones; each accepted update leaves all other entries of the file, also unknown ones, and their order unchanged.",
 "all histories of setter calls and reloads",hist,[JH+":createOrUpdateSetting",JS+":JSONSettingsService",JC+":JSONCoreSettingsService"])
p("C52","Rejected setting values never reach the file but do reach memory",
 "A setter call with an invalid value raises InvalidSettingException (IndexError for a precision tuple that is too short; bool counts as int) and leaves the files unchanged; the in-memory value is nevertheless the rejected one (violated atomicity) until a new service is created, which reads the old value.",
 "all values and histories",hist,[JS+":JSONSettingsService",JH+":createOrUpdateSetting"])
p("C53","Crash during a settings write",
 "Desired: after a crash the file holds the old or the new settings. The code violates this: the file is truncated before it is written, so a crash can leave a strict prefix of the text, from which no service can be created (JSONDecodeError) and which no later setter call repairs (each raises InvalidSettingException); a crash before truncation or after completion is harmless.",
 "all crash points, all settings","Crash points cannot be enumerated by tests.",[JH+":createOrUpdateSetting"])
p("C54","Concurrent setting updates can lose an update or destroy the file",
 "Two processes changing different settings: sequential execution keeps both; for every pair an interleaving exists after which one update is silently lost, one in which a process fails for no reason, and (texts of different length) one which leaves an undecodable file (violated); in every interleaving of the read, truncate and write steps the final file is undecodable or each of the two keys has either its new or its old value, at least one of them the new one, and no other key changes; with atomic writes the file would always be decodable and no process would fail.",
 "all interleavings of the steps of two updates, all settings, values and file contents","Interleavings.",[JH+":createOrUpdateSetting"])
p("C55","RAM and JSON settings services are interchangeable on valid values",
 "After every sequence of valid sets and restarts of the JSON service, the in-memory RAM service and the JSON service answer the same for each setting that was set before or had the same initial value; the built-in RAM defaults differ from the shipped JSON defaults (log level, verbosity, precision).",
 "all histories of valid operations",hist,[RS+":RAMSettingsService",JS+":JSONSettingsService"])
p("C56","Factories map each type to its implementation, DEFAULT to the configured default",
 "Requesting a concrete type yields that implementation regardless of settings; any other request yields the implementation of the configured default; a summation estimator without all its parameters raises ValueError; an unset or zero number of sample points means 50. A request whose configured default is itself DEFAULT, a value the settings accept, recurses until RecursionError (so 'every accepted default is usable' is violated). A root finder's explicit arguments override the settings, missing ones are those persisted by the last accepted setter calls; its algorithm and estimator share one cache, its container uses the same precision.",
 "all settings, all requested types and constructor arguments, all recursion limits, all histories of settings","All settings histories.",[CF+":getConcreteContainer",AF+":getConcreteAlgorithm",EF+":getConcreteEstimator"])
p("C57","CLI changes: effect, idempotence, frame",
 "Running a change command sets exactly the requested settings to the requested values (visible to a service created afterwards), leaves the others and all other entries of the file alone, does not write the file if the values are already set, and running it twice has the effect of running it once without further output; one line is printed per changed setting with old and new value, but the printed 'new' container value is the old one (violated message).",
 "all argument combinations and prior settings","All states.",[CC+":handleChangeSubcommand",CC+":changeContainerSetting"])
p("C58","CLI input validation",
 "Names are matched case-insensitively against the known ones; an unknown container/algorithm/estimator/log-level name exits with code 2 and changes nothing for this setting and the options handled after it, but options handled before it have been carried out (atomicity violated). The controller's verbosity argument maps every string other than 'true' (any case) to False, so a typo silently switches verbosity off (violated), and its algorithm argument accepts 'default', after which no finder can be created (violated). Commands with values the parser lets through never fail, in any sequence, and keep the settings usable for creating root finders.",
 "all argument strings","All strings.",[CC+":changeVerbositySetting",CC+":changeContainerSetting",CPA+":parseArgs"])
p("C59","Plugin (un)installation affects only the plugin directory",
 "Installing an existing file adds exactly one file of the same base name with the same content to the plugin directory; installing a missing one returns False, a directory or a file already in place raises, without any change; uninstall(name) of a plain name removes exactly that file or returns False; install then uninstall restores the former state if the name was free; any sequence of such calls changes nothing but files directly in the plugin directory; the data path handed out for a plain name leads to the file of that name in that directory. For names with '..' or absolute paths uninstall deletes a file outside the plugin directory (confinement violated); installing over an existing plugin silently replaces it (violated).",
 "all directory trees, paths, names and call sequences","All file systems and call sequences.",[IH+":InstallationHelper"])
p("C60","Plugin discovery and loading",
 "Discovery returns exactly the names of the directory not starting with '__', in order; candidates are the <stem>.py files; at most one plugin class per module (the first in dir() order) is loaded; all loaded plugins are registered in discovery order, the last one for a type wins, other registrations stay. A module that cannot be imported prevents every plugin from loading (isolation violated); because modules are looked up in a package 'pyzeal_plugins' that the distribution does not have, no installed plugin ever loads and one installed .py file makes loading fail (violated); getInstance never caches (singleton violated).",
 "all directory contents, module contents and import outcomes","All directories.",[PL+":PluginLoader"] if "PL" in globals() else ["pyzeal/plugins/plugin_loader.py:PluginLoader"])
p("C61","Initialization modes and idempotence",
 "The first initialization registers exactly the services of its mode (settings for every mode without GUI; algorithm, container, estimator for SCRIPT; parser, controller, testing handler for CLI; for CLI|SCRIPT only settings), keeps other registrations and, unless the mode is CLI, loads the plugins; it counts as done iff it did not raise and can be repeated otherwise; after a successful one every further call in any mode changes nothing; it never seals, and on a sealed locator raises without effect. Resolved settings are those of the files at that moment. GUI modes raise unless settings are registered elsewhere; installing a single plugin file makes every later SCRIPT initialization raise until it is uninstalled (violated expectation), while CLI initialization still works.",
 "all modes, locator states, settings files, plugin directories and histories of init calls",hist,[IN+":PyZEALInitializationHandler.initPyZEALServices","pyzeal/pyzeal_types/init_modes.py:InitModes"])
p("C62","Logging configuration",
 "In every history of logger uses, level changes and directory changes: a logger has at most one handler (none if the root logger has handlers), namely the session's file in the ./logs of the directory current at its first initialization; its level is the one set last by any object of the module, including the configured one at another object's first use (so an explicitly set level is not kept: violated); exactly the messages at or above the level (NOTSET: the root logger's) are written, once, in order. File names of two sessions are equal iff they started in the same second. Processes starting concurrently without a logs directory can fail (violated); with an existing one they cannot.",
 "all histories, schedules of concurrent starts, dates",hist,[LM+":LogManager",LO+":Loggable"])
p("C63","End-to-end guarantee of the simple-argument finders",
 "If the estimator's error is at most 0.2 turn and no zero lies on the border of a cell (a rectangle that repeated bisection of the longer side, measured in tolerances, can produce), then after calculateRoots with p requested decimals on a fresh unfiltered serial finder the call returned normally, each zero in the requested rectangle is matched by a reported root within 10^-(p+1) in each coordinate and each reported root by a zero of the slightly enlarged domain; for separated zeros the orders are right and each zero is reported exactly once. The parallel finder gives the same with tolerance 0.55*10^-p, for every number of jobs and every schedule, and an interrupted pool still reports only genuine roots. A recursion limit never truncates a search silently: the call either delivers all of this or raises RecursionError.",
 "all functions, rectangles, precisions, schedules","Ranges over all functions and schedules.",[RF+":calculateRoots",SH+":calcRoots",RC+":addRoot",PF+":calculateRoots"])
p("C64","Axis-parallel order 0 requests never raise",
 "A request of order 0 for a horizontal or vertical line never raises an exception, whatever was requested before. Holds for horizontal lines; vertical ones can raise IndexError after slices of a longer line were cached, because the test deciding about re-sampling compares with the wrong end point (violated).",
 "all histories and lines",hist,[SE+":retrieveCachedHorizontal",SE+":retrieveCachedVertical"])
p("C65","The adaptive search is sound in binary64 arithmetic and ends as long as the tolerance is resolvable",
 "With every subtraction, product, quotient and midpoint rounded to the nearest double: the rectangles where the search ends still tile the start rectangle; every reported root lies in a sub-rectangle with sides below the tolerances and positive estimated order; relative to good estimates the reported orders and zeros are right and every zero is found within the tolerances. The search ends if all corners have size at most 2^k and the tolerances are at least 2^(k-49). It does not always end: around a zero whose coordinate is larger than 2^52 tolerances (and not on the grid of doubles) a search with right estimates recurses for ever (violated; in Python: RecursionError or an endless loop).",
 "all rounding functions with the stated properties, in particular IEEE binary64; all rectangles, tolerances, estimators and caches","Rounding errors depend on the operands; a test tries finitely many rectangles, and non-termination cannot be observed by a test.",[SH+":decideRefinement",SH+":calcRoots",SH+":getRootFromRectangle",SN+":decideRefinement",PH+":decideRefinement"])
p("C66","Widened domain and parallel job grid in binary64 arithmetic",
 "In double arithmetic the searched domain always contains the requested rectangle, strictly so if the unit of the last decimal is at least 2^-52 times the size of the domain (beyond that the margin is rounded away and the domain may stay symmetric: violated). The n*n jobs of the parallel finder, built with numpy's linspace, tile the domain without gaps or overlap for up to 2^51 processes and domains that are not subnormally narrow (for those the last cell may be inverted: violated).",
 "all requested rectangles, precisions and process numbers, all double corners","Rounding errors depend on the operands; a test tries finitely many.",[RF+":desymmetrizeDomain",PF+":createRootJobs"])
p("C67","Rounding of doubles in the container",
 "Python's round(x, n) on doubles is stable (rounding again changes nothing), moves a double by at most 10^-n, and identifies exactly those doubles whose exact decimal roundings coincide; so a RoundingContainer fed with Python floats holds, after any history, exactly the nearest doubles of the decimals described by C01-C07 and gives the same answers. numpy's rounding (used for roots that are numpy scalars, as in the parallel finder) is stable too and yields a decimal within 9/16 of a unit for |x|*10^n <= 2^50, n <= 22, but the two do not always agree (0.15 to one decimal is 0.1 or 0.2: violated).",
 "all doubles, precisions and histories","The claim ranges over all doubles; near-ties are hit by tests only by luck.",[RC+":roundRoot",RC+":addRoot",RC+":removeRoot"])
p("C68","Whole searches in double precision",
"Run with real double arithmetic - every sum, difference, half and grid point rounded, tolerances equal to the library's 10**-precision, reported roots rounded by round() - a search keeps the promises of the exact one as long as the tolerance is at least 16 units in the last place of the largest coordinate of the request: with a reliable estimator and enough recursion depth calculateRoots ends normally, every reported value is a pair of doubles, every zero of the requested rectangle has a reported root within 5/4 units of the searched precision, every reported root has positive order and lies that close to a zero of the function at most 17/4 units outside the request; with zeros further apart than 5/4 units every reported order is the multiplicity of the zero, and with zeros further apart than 5/2 units every requested zero is reported exactly once. The parallel finder gives the same at 13/20 of a unit of the requested precision for every grid and schedule, and an interrupted pool still reports only genuine zeros. With too small a recursion limit RecursionError is raised, never a truncated result.",
"All functions (zeros with multiplicity), requests, precisions, tolerances within 2^-50 of the power of ten, states, log levels, iteration orders of the result set, grids of up to 2^51 by 2^51 jobs, schedules and interruption points.",
"Rounding errors in the grid, in the midpoints, in the size test and in round() could conspire on any of infinitely many inputs; tests only sample.",
["pyzeal/rootfinders/rootfinder.py:112-170 RootFinder.calculateRoots, desymmetrizeDomain","pyzeal/rootfinders/parallel_finder.py:92-232 ParallelRootFinder","pyzeal/algorithms/simple_holo.py:76-180","pyzeal/utils/containers/rounding_container.py:60-151"])
p("C69","Argument principle for the phase-summation estimator",
 "Let f be, on a rectangle, a product of factors z - w and a function without zeros whose argument changes by at most L per unit length. If the spacing of the initial samples times (L + number of zeros / their distance to the border) is below pi, then for lines on levels the estimator has not sampled before it answers all four sides without error, reports no zero on the border, and the four answers sum to exactly 2 pi times the number of zeros inside the rectangle, with multiplicity - for every threshold and whatever the refinement does. The sampling bound is necessary in general (C37).",
 "all factorised functions (in particular all polynomials), rectangles, numbers of points, thresholds and cache contents on other levels","A continuum of functions and rectangles; tests check a few rectangles with well separated zeros.",[SE+":calcMomentAlongLine",SE+":genPhiArr","pyzeal/algorithms/estimators/argument_estimator.py:calcMoment"])
p("C70","Whole searches with the summation estimator and its caches find exactly the zeros",
 "Let f be, on the searched rectangle, a product of factors z - w and a function without zeros, and let the sample points per side be numerous enough for every bisection cell. Then a search of a new finder with the simple-argument algorithm and the phase-summation estimator - although most lines are answered from the result cache or cut out of samples of longer lines, so that a side may be off by two sample steps - reports exactly the zeros: each requested zero within 10^-(p+1), each reported root a zero, with the right orders, each exactly once. The only other outcomes are RecursionError (recursion limit) and IndexError, and the latter only if the samples on a vertical side are further apart than half the tolerance. The same for the parallel finder in every schedule (its jobs share one copy of the estimator per column, C80), if in no job but the topmost ones of a column a cell with a zero at the upper side of the job is cut vertically.",
 "all factorised functions (in particular all polynomials), requests, precisions, thresholds, sample numbers, recursion limits, schedules","A continuum of functions and the whole history of cache contents during a search; tests check a few functions.",[SE+":calcMomentAlongLine",SE+":retrieveCachedHorizontal","pyzeal/algorithms/estimators/argument_estimator.py:calcMoment","pyzeal/algorithms/estimators/estimator_cache.py:EstimatorCache",SH+":calcRoots",RF+":calculateRoots"])
p("C71","Searching again with the same finder",
 "A finder keeps one estimator, whose internal line caches are never cleared. A search with a used finder keeps all promises of C70, whatever the earlier searches were and however they ended, provided that no side of a bisection cell of it lies on the same horizontal or vertical line as a side of a cell of an earlier search. Without the proviso the promise is false: a search for the simple zero of z - (13+i)/15 in [0, 1.3] x [0, 0.1] finds it with a new finder but, after a search of the point 0 with the same finder, ends normally and reports nothing, because two sides are answered with the sums over shorter sides of the earlier search - for every number of sample points from 1001 on, the default included.",
 "all histories of searches, functions, requests, precisions, sample numbers; the counterexample for all sample numbers from 1001 on, recursion limits and log levels","Histories of searches are unbounded, and the tests use a new finder for each search.",[SE+":retrieveCachedHorizontal",SE+":retrieveCachedVertical",SH+":calcRoots",RF+":calculateRoots"])
p("C72","The command line program as a whole",
 "With readable settings: a command line argparse rejects (or answers itself) changes nothing; without options the program only prints a hint; view -p prints the six settings a new process would use; change has exactly the effects of C57/C58 and leaves the plugin directory alone; plugin --install copies exactly the file its (relative or absolute) path means from the working directory into the plugin directory, --uninstall removes one, both together replace one, a missing file ends the program with code 2 and changes nothing; -m lists the directory; -t runs the four test modules in order. After any history of runs settings stay readable, are those of the change commands alone in their order, and the plugin directory is that of the plugin commands alone. Unreadable settings make every command fail, --help and change included, so they cannot be repaired with the program; plugin -l fails once a Python file is installed (both against what a user expects).",
 "all command lines, working directories, file systems, settings files and histories of runs","Command lines, files and histories are unbounded; the tests mock the parser, the controller and the installer.",["pyzeal/cli/__main__.py:PyZEALEntry.mainPyZEAL","pyzeal/cli/cli_parser.py:PyZEALParser.parseArgs","pyzeal/cli/cli_controller.py:CLIController","pyzeal/utils/install_test_handler.py"])
p("C73","Moments computed by the quadrature estimator",
 "Let f'/f be, on the border of a rectangle, the sum of 1/(z-w) over the zeros w (with multiplicity) and the derivative of a function. If the second derivatives of z^k f'(z)/f(z) along the sides are small enough for Romberg's rule on 2^10+1 points to be off by at most e < 1/2000 per side, the loop of the estimator stops after its first round on each side, no zero is reported on the border, and the four sides sum to 2 pi times the sum of the k-th powers of the zeros inside, up to 4e in the real and in the imaginary part - for k = 0 the number of zeros, and for larger k the power sums from which the Newton-polynomial algorithm is built. For polynomials the bound is explicit in the degree, the order k, the size of the rectangle and the distance of the zeros to its border.",
 "all functions with such a logarithmic derivative (in particular all polynomials), rectangles and orders","A continuum of functions and rectangles; tests check the rounded order for a few.",["pyzeal/algorithms/estimators/quad_estimator.py:QuadratureEstimator.calcMomentAlongLine","pyzeal/algorithms/estimators/argument_estimator.py:calcMoment"])
p("C74","Whole searches with the quadrature estimator find exactly the zeros, whatever was searched before",
 "If Romberg's rule on 2^10+1 points integrates f'/f over the sides of all bisection cells with an error below 1/2000, a search with the simple-argument algorithm and the quadrature estimator ends with RecursionError (recursion limit) or reports exactly the zeros: each requested zero within 10^-(p+1), each reported root a zero, with the right orders, each exactly once - and with enough recursion depth it does not raise. This holds whatever the estimator was used for before, in contrast to the summation estimator (C71), and for the parallel finder in every schedule and distribution of the jobs. For a polynomial the condition holds if no zero comes closer to the side of a cell than k times the longer side of the cell and the degree is below 524 k^3.",
 "all functions with such logarithmic derivatives (in particular all polynomials), requests, precisions, recursion limits, earlier searches, grids and schedules","A continuum of functions and the whole history of cache contents; tests check a few functions with new finders.",["pyzeal/algorithms/estimators/quad_estimator.py:QuadratureEstimator.calcMomentAlongLine","pyzeal/algorithms/estimators/argument_estimator.py:calcMoment","pyzeal/algorithms/estimators/estimator_cache.py:EstimatorCache",SH+":calcRoots",RF+":calculateRoots",PF+":calculateRoots"])
p("C75","Whole searches with the Newton-assisted algorithm find the zeros; once each unless a derivative is given",
 "If the estimator counts the zeros of every bisection cell correctly, the secant iteration started from a small cell around a simple zero ends within half of 10^-(p+1) of that zero and Newton's iteration (used if a derivative is given) does so or gives up, then a search with the Newton-assisted algorithm ends with RecursionError or reports every requested zero within 10^-(p+1), nothing but zeros, and with the right orders; each zero exactly once if no derivative is given. With enough recursion depth it does not raise. The same holds for the parallel finder, and with the summation and the quadrature estimator under the conditions of C70 (for the parallel finder those of its last sentence) and C74. With a derivative, 'exactly once' is false: the two iterations can be rounded apart, and one simple zero is reported as two roots.",
 "all estimators, iterations, functions, requests, precisions, recursion limits, grids and schedules within the stated conditions","A continuum of functions and of iteration end points; the double report needs end points on both sides of a rounding boundary, which tests with nice zeros never hit.",["pyzeal/algorithms/simple_holo_newton.py:SimpleArgumentNewtonAlgorithm.decideRefinement",SH+":calcRoots",RF+":calculateRoots",PF+":calculateRoots"])
p("C76","Whole searches with the associated-polynomial algorithm find the zeros",
 "The algorithm stops bisecting at a cell with one, two or three zeros, computes the power sums of these zeros from the higher moments, turns them into a polynomial by Newton's identities and reports the roots of that polynomial, grouped with multiplicities. Suppose the estimator counts the zeros of every bisection cell correctly and its moments of order 1 to 3 are off by at most d; the polynomial solver is backward stable, with an error e in the coefficients; and the zeros of each such cell are well enough conditioned for these errors (for a single zero d + e below half of 10^-(p+1); otherwise an explicit inequality in d, e, the size of the zeros and their distances). Then a search ends with RecursionError or reports every requested zero within 2 units of 10^-(p+1) and nothing else; if different zeros are more than two such units apart, within one unit, with the right orders and each exactly once. With enough recursion depth it does not raise. The same holds for the parallel finder in every schedule (13/20 and 11/20 of 10^-p), and for the quadrature estimator, whatever it was used for before, with d = 8 eps + 2 e0, where e0 is the error of Romberg's rule on a side and eps that of rounding an angle. Moments that are merely accurate to the tolerance are not enough: a root reported for a double zero can then be too far away even with an exact polynomial solver.",
 "all estimators, solvers, functions, requests, precisions, recursion limits, earlier searches, grids and schedules within the stated conditions","A continuum of functions, error terms and zero configurations; the conditioning of multiple zeros only shows for unlucky errors.",["pyzeal/algorithms/polynomial_holo.py:AssociatedPolynomialAlgorithm","pyzeal/algorithms/estimators/quad_estimator.py:QuadratureEstimator.calcMomentAlongLine","pyzeal/algorithms/estimators/estimator_cache.py:EstimatorCache",SH+":calcRoots",RF+":calculateRoots",PF+":calculateRoots"])
p("C77","Filters that raise during a search",
 "In a serial search each zero is offered to the container's filters the moment it is found. If a filter raises, the search ends there: the exception reaches the caller of calculateRoots unchanged (a KeyboardInterrupt means a normal return), the container keeps exactly what was stored before, and if no filter raises the outcome is that of listing all zeros first and storing them afterwards. One exception, which a user does not expect (refuted): with the Newton-assisted algorithm a RuntimeError (also NotImplementedError, RecursionError) raised by a filter on the result of an iteration is swallowed; the zero is lost silently and the search goes on exactly as if that iteration had not converged. The parallel finder asks the filters only while emptying the queue; there every exception, even KeyboardInterrupt, reaches the caller, and what was taken from the queue before is stored.",
 "all filters, histories of the container, algorithms, functions, estimators, domains, positions of the raising filter call; all queues","The filter may raise at any zero.",["pyzeal/algorithms/simple_holo_newton.py:decideRefinement","pyzeal/rootfinders/rootfinder.py:calculateRoots","pyzeal/rootfinders/parallel_finder.py:calculateRoots","pyzeal/utils/containers/rounding_container.py:addRoot"])
p("C78","The command line's language",
 "The program accepts exactly these command lines: options of the program (-t/--test), then perhaps one of the subcommands view, change, plugin and options of that subcommand. A long option may be abbreviated to any beginning of its name, its value may be joined with '=' or be the next word (which must not look like an option), letters of flags may share one hyphen, --precision takes two integers, the other change options one of their listed words; if an option is repeated, the last one counts; what is not given is off; and a line has one meaning only. Every other line ends the program with code 2 and changes nothing, except that --help, -h and --version end it with code 0. So 'pyzeal change ...' in any of its spellings makes a new process use exactly the values asked for and keeps the other settings, 'view -p' prints the six settings, and 'plugin --install FILE' copies that file, and the histories of C72 need no assumption about the parser.",
 "all lists of words (any characters), machines and histories of runs","There are infinitely many spellings and orders of options; the tests replace the parser by a mock.",["pyzeal/cli/cli_parser.py:PyZEALParser.parseArgs","pyzeal/cli/cli_parser.py:PyZEALParser.addChangeSubcommand","pyzeal/cli/cli_parser.py:PyZEALParser.addPluginSubcommand","pyzeal/cli/parse_results.py","pyzeal/cli/__main__.py:PyZEALEntry.mainPyZEAL"])
p("C79","What settings files mean, also when edited by hand",
 "For settings files holding JSON objects (or missing): a new settings service is created exactly if each of the six settings is readable, taking each entry from the custom file if it has one and from the default file otherwise: containers, algorithms, estimators and log levels are the exact words used for them, verbose is any value but null (false, 0, empty strings, lists, objects and zero floats count as false, everything else as true), the precision is the first two elements of a list. Otherwise creation fails: KeyError only if a container, algorithm, estimator or level is missing, IndexError only for a precision list that is too short, InvalidSettingException only for an unreadable value; a file that is not JSON gives JSONDecodeError, one that is no object AttributeError. Other entries, their order and the layout do not matter. One unreadable setting is repaired by a setter call of a service made earlier. That loaded values satisfy the checks of the setters is false: the string 'false' is read as true and a precision may consist of anything.",
 "all pairs of settings files (any text), settings and values","Users edit the files with a text editor, so any text can occur; the tests only use a few valid files.",["pyzeal/settings/json_settings_service.py:JSONSettingsService.__init__","pyzeal/settings/json_core_settings.py:JSONCoreSettingsService.__init__","pyzeal/settings/json_helper.py:JSONHelper.loadSettingsFromFile","pyzeal/settings/json_helper.py:JSONHelper.loadCoreSettingsFromFile"])
p("C80","The parallel finder's jobs share estimators column by column",
 "The parallel finder cuts the domain into m x m jobs and hands them to the pool in m tasks of m jobs. Every job is in exactly one task; a task is a column of the domain, from the bottom upwards. The jobs of a task run one after the other on one copy of the finder, so each finds the estimator as the jobs below it have left it. The first exception ends the task: the roots reported before it are in the queue, the later jobs of the column are never run. With an estimator that counts correctly in every state the parallel search keeps all promises of C63 in spite of the sharing, in every schedule. With the quadrature estimator every job of a task does exactly what it would do with a new finder, up to the first job that raises. With the default estimator it does not, whatever the number of sample points: for f with zeros (184+i)/60 and (137+79i)/60, searched for in [0, 6.1] x [0, 2.5] on two processors, the second zero is lost although every side is sampled well enough and the serial finder finds it (the half side that the job below has stored is taken for the whole side).",
 "all numbers of processors, functions, domains, precisions, estimators, recursion limits, schedules and interruptions","Which job runs after which is decided by the chunk size and the machine's number of processors; tests run on one machine.",["pyzeal/rootfinders/parallel_finder.py:92-218 ParallelRootFinder.calculateRoots","pyzeal/rootfinders/parallel_finder.py:220-232 ParallelRootFinder.rootWorker",SE+":retrieveCachedHorizontal"])
p("C81","Which texts a settings file may consist of",
 "A settings file is read exactly if its text is a JSON document (RFC 8259 grammar, plus Python's NaN, Infinity, -Infinity and lone surrogate escapes), every other text is a JSONDecodeError, and no text has two meanings: strings with all escapes and surrogate pairs, numbers, nested values, blanks, and later duplicates of a name replacing earlier ones are read as the grammar says. Only the document counts, not its layout: re-formatted files give the same service and the same outcome, down to the written text, of every setter. What a setter writes is again a document, in printable ASCII, whatever the file contained before.",
 "all texts (lists of code points), all settings files, setters and values", "the set of texts is infinite and layout, escapes and nesting combine arbitrarily; a parser can accept too much or read something wrong in a corner no example touches",
 ["pyzeal/settings/json_helper.py: loadSettingsFromFile, loadCoreSettingsFromFile, createOrUpdateSetting, createOrUpdateCoreSetting", "Python's json.load / json.dump as used there"])
p("C82","What a whole search with Newton's method on a grid reports",
 "With the Newton grid algorithm, after calculateRoots the finder holds exactly the roundings of those last iterates (one per point of the evenly spaced grid on the enlarged domain, or on every cell of it in the parallel finder) that pass the filters, all with order 0, plus earlier results under the usual precision rule; a failing Newton iteration changes nothing. A requested zero is reported, up to the accuracy of the iteration plus half a unit, if it attracts the start points at most half a grid spacing away; if the filters accept only iterates near zeros, a new finder reports only values near zeros. That each zero is then reported once is false in general (an iteration ending on both sides of a rounding tie gives two roots) and true for zeros away from ties. For the same number of sample points the parallel grid is as dense as the serial one only if that number is 0 or 1 modulo the number of processes.",
 "all target functions, Newton iterations, domains, precisions, filters, container histories, grid sizes, process numbers and schedules", "completeness depends on every start point and every limit; the double report needs limits on both sides of a rounding tie, a coincidence no sample hits",
 ["pyzeal/algorithms/newton_grid.py: NewtonGridAlgorithm.calcRoots", "pyzeal/rootfinders/rootfinder.py: RootFinder.calculateRoots", "pyzeal/rootfinders/parallel_finder.py: ParallelRootFinder.calculateRoots, createRootJobs, __init__", "pyzeal/utils/containers/rounding_container.py: RoundingContainer.addRoot"])
p("C83","Setting the log level of a finder",
 "finder.setLevel(level) sets the level of the loggers of the finder's, its container's and its algorithm's class and of no other class; right afterwards these three objects write exactly the messages at or above the level. Without resolvable settings it raises exactly if one of the three objects never used its logger. Contrary to its documentation it does not reach all dependent objects (an argument estimator keeps its level and its messages stay dropped), and it is not confined to the finder: all finders of the class are affected.",
 "all histories of logger use, levels, objects and classes, settings outcomes", "levels are process-global per module, so the effect depends on the whole history of all objects; a test looks at one finder",
 ["pyzeal/rootfinders/rootfinder.py: RootFinder.setLevel", "pyzeal/pyzeal_logging/loggable.py: Loggable.logger, setLevel", "pyzeal/pyzeal_logging/log_manager.py: LogManager.initLogger"])
p("C84","Results that are not finite numbers",
 "Newton iterations can end at nan or infinity. With the bounds filter registered (and finite search ranges) nothing but finite roots inside the ranges is ever reported, with the function value filter only candidates where f has a finite value below the threshold. Without filters, as by default, such results are reported: every candidate with a nan part gives an entry of its own, equal ones are not merged and cannot be removed again; infinite ones are reported once. They never change which finite roots are reported, and the reported roots do not depend on the order in which candidates arrive. Newton on a grid without filters reports one nan entry per diverged start point; if the iteration fails or a filter raises, the container keeps exactly what was added before. On finite numbers the container is the one of C01-C10.",
 "all histories of container calls, all filters, candidates with nan or infinite parts, lists of iterates, arrival orders", "nan is different from itself, so set semantics breaks down only for particular histories; tests use functions whose iterations converge",
 ["pyzeal/utils/containers/rounding_container.py: RoundingContainer", "pyzeal/utils/factories/container_factory.py: _zero_in_bounds, _func_value_zero", "pyzeal/algorithms/newton_grid.py: NewtonGridAlgorithm.calcRoots"])
p("C85","Phases that are not numbers",
 "If f overflows or is undefined at a sample point, the phase of a rectangle is nan (or infinite). For all three argument algorithms and every estimator: a search that returns normally has tiled the whole domain with rectangles it had a reason to leave, and has refined every rectangle whose phase was nan or +inf; otherwise it raises at a rectangle below the tolerance (ValueError for nan, OverflowError for infinity), having done up to there what the search with these phases replaced by four turns does. It always terminates, with the same depth bound as for numbers; if the phase is undefined everywhere it raises ValueError and adds no root. An undefined phase need not lead to an error, and an error hides zeros elsewhere.",
 "all estimators (any nan pattern, any state), algorithms, rectangles, precisions", "comparisons with nan silently take the else branch, so what is skipped depends on where undefined values occur in the refinement tree",
 ["pyzeal/algorithms/simple_holo.py: decideRefinement, getRootFromRectangle, calcRoots", "pyzeal/algorithms/simple_holo_newton.py: decideRefinement", "pyzeal/algorithms/polynomial_holo.py: decideRefinement"])
p("C86","Functions undefined at some points",
 "With the summation estimator, for a function that is nan at some points: a line not seen before is nan exactly if one of its sample points (among them the n evenly spaced ones) is undefined, and is the usual sum otherwise; where f is defined along a segment, what it does elsewhere has no influence; for functions defined everywhere nothing changes. One nan side makes the phase of a rectangle nan, nan sides are remembered and never evaluated again. Every search that returns normally has tiled the domain, and each rectangle it left without a zero had a phase that is a number below 0.8 turns. A function without zeros that is undefined at the lower left corner of the domain makes every search end with ValueError and no root, so one missing point can make every search fail.",
 "all partial functions, lines, rectangles, estimator states and settings, algorithms, depths", "the result depends on which of infinitely many points are undefined and on the adaptive sampling", ["pyzeal/algorithms/estimators/sum_estimator.py: calcMomentAlongLine, genPhiArr, retrieveCachedHorizontal, retrieveCachedVertical", "pyzeal/algorithms/estimators/argument_estimator.py: calcMoment, genFuncArr", "pyzeal/algorithms/simple_holo.py: calcRoots, decideRefinement"])
p("C87","What a search costs",
 "If every winding number estimate of a search is good enough and no zero lies on a border met, all three argument algorithms ask the estimator for at most 1 + 2*N*(a+b) winding numbers, where N is the number of zeros in the domain (with multiplicity) and a, b the numbers of halvings that bring the sides below the tolerance; the polynomial algorithm asks for at most N further moments, the others for none. A domain without zeros costs one estimate. A finished simple search that meets a zero never costs less than 1 + 2*(a+b), and with exactly one simple zero it costs exactly that.",
 "all estimators (any state), algorithms, zeros, domains, precisions, recursion limits and outcomes", "the worst case of C20 is exponential; that good estimates make it linear depends on every refinement decision of the search", ["pyzeal/algorithms/simple_holo.py: calcRoots, decideRefinement, calcRootsRecursion", "pyzeal/algorithms/simple_holo_newton.py: decideRefinement", "pyzeal/algorithms/polynomial_holo.py: decideRefinement"])
p("C88","A search looks at the function on the domain only",
 "Take two functions with the same values on the searched rectangle. If the search with the one returns normally and reports no root of order 0 (no zero was hit by a sample point of a contour), the search with the other makes the same reports, the same requests and leaves the same state: what the function does elsewhere - poles, zeros, branch cuts - has no influence. This holds for every algorithm and both estimators (for quadrature with the derivative's values on the rectangle too), for every earlier use of the estimator; seen from the root finder the rectangle is the request with margins of at most four units of one decimal more than requested. Without the condition, and however the search ends, nothing to the left of the domain or below it matters; points above or to the right may matter, because contours through a zero are moved upwards or to the right. The same holds for the tasks of the parallel finder's pool: what they put into the queue and how they end, on any number of processors.",
 "all pairs of functions that agree on the domain, estimators and their states, algorithms, domains, precisions, requests", "a statement about all pairs of functions and all points that are not looked at; a test sees one function at a time", ["pyzeal/algorithms/estimators/argument_estimator.py: genFuncArr", "pyzeal/algorithms/estimators/sum_estimator.py: genPhiArr, retrieveCached, calcMomentAlongLine", "pyzeal/algorithms/estimators/quad_estimator.py: calcMomentAlongLine", "pyzeal/algorithms/simple_holo.py: calcRoots, calcRootsRecursion", "pyzeal/rootfinders/rootfinder.py: calculateRoots", "pyzeal/rootfinders/parallel_finder.py: calculateRoots, rootWorker"])
p("C89","Only the direction of the function's values matters",
 "Multiplying the target function by a nonzero complex constant changes nothing: the search makes the same requests and reports and ends in the same state, and the root finder holds the same roots. With the summation estimator the function may also be multiplied by any positive factor varying from point to point; with the quadrature estimator a constant factor common to the function and its derivative is allowed. Equality on the searched rectangle up to such a factor is enough if the search returns normally and meets no zero on a contour; if the factor is given in the whole plane it holds for every search, however it ends. The tasks of the parallel finder's pool likewise do not change.",
 "all functions, factors, estimators and their states, algorithms, domains, precisions, recursion limits, requests", "a statement about all pairs of functions differing by a factor, through every adaptive decision of the search", ["pyzeal/algorithms/estimators/sum_estimator.py: genPhiArr, calcMomentAlongLine", "pyzeal/algorithms/estimators/quad_estimator.py: calcMomentAlongLine", "pyzeal/algorithms/estimators/argument_estimator.py: genFuncArr, calcMoment", "pyzeal/algorithms/simple_holo.py: calcRoots", "pyzeal/rootfinders/rootfinder.py: calculateRoots", "pyzeal/rootfinders/parallel_finder.py: calculateRoots, rootWorker"])
p("C90","The total phase is right in double precision",
 "The summation estimator adds up computed phases with rounding errors. However the additions are grouped and ordered, the sum of n doubles is off by at most (1 + 2^-53)^(n-1) - 1 times the sum of their magnitudes. For a function with known zeros that is sampled well enough (as in C69) and computed phases accurate to eps, all four sides of a rectangle are answered and the computed total is off from 2 pi times the number of zeros inside by at most n*eps + ((1 + 2^-53)^n - 1)*n*(eta + eps), n being the number of phases added and eta the largest true phase. With up to 2^25 phases accurate to 2^-30 this is less than 3/5, so the comparison with 0.8 * 2 pi says 'no zeros' exactly if there are none and the reported order is the number of zeros, whatever the rounding of the threshold and of the quotient by 2 pi.",
 "all functions, zeros, rectangles, roundings of the phases, orders and groupings of the additions, thresholds, numbers of sample points", "rounding errors depend on all values and on the way numpy blocks the additions; tests compare a few results with a tolerance", ["pyzeal/algorithms/estimators/sum_estimator.py: genPhiArr, retrieveCachedHorizontal, retrieveCachedVertical, calcMomentAlongLine", "pyzeal/algorithms/estimators/argument_estimator.py: calcMoment", "pyzeal/algorithms/simple_holo.py: decideRefinement, getRootFromRectangle", "pyzeal/algorithms/constants.py: TWO_PI"])
p("C91","Sampling a line stays within bounds",
 "The adaptive refinement of a line never gets out of hand, whatever the function does: a line that is answered was sampled at no more than 100*n + 100*(k+1)*pi/delta points with k^2 <= 2n, n being the number of initial points and delta the phase threshold (with the defaults, 6500 and 0.01, fewer than 4.65 million). Without zeros on the segment fewer than sqrt(2n) + 1 rounds of refinement are needed. Whatever was asked before with these settings, failed requests included, the estimator's memory holds at most one line and two arrays per request, none longer than that bound. In double precision and with the defaults fewer than 2^25 phases are added up around a rectangle, so that the decisions taken from the computed total (no zeros here; the reported order) are those of the exact one.",
 "all functions, segments, numbers of sample points, thresholds, histories of requests, roundings of phases and sums", "the refinement is driven by the function's values; a test can show that some function is sampled reasonably, not that none can make the arrays explode", ["pyzeal/algorithms/estimators/sum_estimator.py: genPhiArr, storeCache, retrieveCachedHorizontal, retrieveCachedVertical", "pyzeal/algorithms/estimators/constants.py: MAX_Z_LENGTH, Z_REFINE"])
p("C92","A target function that raises",
 "If some calls of the target function (or its derivative) raise while an argument is estimated, the search of a serial finder either runs as if they had not been made or ends with the function's own exception, which reaches the caller of calculateRoots unchanged (a KeyboardInterrupt means a normal return). Reported by then, and kept in the container, is a beginning of the list of roots that the undisturbed search reports; zeros met on a line before the failing call are not dropped. The estimator's line caches are those of completed requests only, so later searches of the same finder find consistent caches. In the parallel finder the same holds for every task of the pool: an exception ends its task only. The Newton-assisted algorithm violates this: a RuntimeError (or NotImplementedError, RecursionError) of the function during the iteration is taken for non-convergence, the search returns normally and the root is lost.",
 "all functions, all sets of failing calls (depending on the samples asked for in any way) and exceptions, all algorithms, both estimators, domains, histories", "the failing call may be any of thousands; what was reported before, and the caches, must be right for each position", ["pyzeal/algorithms/estimators/argument_estimator.py: genFuncArr, calcMoment", "pyzeal/algorithms/estimators/sum_estimator.py: genPhiArr, retrieveCachedHorizontal, retrieveCachedVertical", "pyzeal/algorithms/estimators/quad_estimator.py: calcMomentAlongLine", "pyzeal/algorithms/simple_holo_newton.py: decideRefinement", "pyzeal/rootfinders/rootfinder.py: calculateRoots", "pyzeal/rootfinders/parallel_finder.py: rootWorker"])
p("C93","The progress display changes nothing",
 "A search with progress display (verbose) finds and answers what it would without: any history of searches of serial and parallel finders in one process, verbose or not, returning, failing or interrupted, gives the answers and containers of the same searches made without display, and at the end no display is live; what a display shows is the area searched, the sum of what the search reported, and 'finished' exactly for a search that was not cut short. The code guarantees this for parallel finders, and with a rich that allows several live displays; with rich before 14.1 only as long as no verbose serial search ends with an exception other than KeyboardInterrupt: such a search leaves its display live, and every later verbose search in that process is refused with LiveError before it begins (quiet ones go on). The task of an interrupted search is never stopped and hidden (its number 0 counts as false).",
 "all histories of searches, finders, functions, rectangles, ways to end", "the damage shows only in later calls of the same process, for some histories and releases of rich", ["pyzeal/rootfinders/rootfinder.py: calculateRoots", "pyzeal/rootfinders/parallel_finder.py: calculateRoots", "pyzeal/utils/finder_progress.py: FinderProgressBar, addTask", "pyzeal/algorithms/simple_holo.py: decideRefinement"])
p("C94","Interrupts at any instant",
 "A KeyboardInterrupt can arrive between any two instructions. Whenever it arrives while a search runs its algorithm - also in the middle of addRoot, of the other calls of a rounding container, or of a write to the estimator's line caches - the search returns normally and leaves a container that is also reached by complete calls: what is stored is rounded to its precision, no pair is stored twice, every report handled before that instant and accepted is there, and nothing else than what was there before or was reported; at equal precision nothing found earlier is lost, in a parallel search too. A later search with the same finder that shares no level with the interrupted one finds exactly the zeros; with the quadrature estimator every later search is as with a new finder. With progress display the answers are the same and no display is left behind. The code violates the rest in four ways: a search made again with the same finder after it was interrupted can lose a zero that it finds alone, since the interrupted search may have replaced a line of the cache by its beginning; if the precision changes, an interrupt between the clearing of the container and the insertion loses everything found earlier; and an interrupt inside getRoots of a plain container, which takes roots out of its queue and puts them back, can lose one; and an interrupt between progress.start() and the try statement, or between it and progress.stop(), leaves the display live, after which (rich before 14.1) no search with display can be made in that process.",
 "all histories of container calls and searches, all instants at which they are cut off", "the instant of an interrupt cannot be chosen in a test, and there are as many as there are instructions", ["pyzeal/utils/containers/rounding_container.py: addRoot, removeRoot, clear", "pyzeal/utils/containers/plain_container.py: addRoot, getRoots, _transferRootBuffer", "pyzeal/rootfinders/rootfinder.py: calculateRoots", "pyzeal/rootfinders/parallel_finder.py: calculateRoots", "pyzeal/algorithms/estimators/sum_estimator.py: calcMomentAlongLine, storeCache"])
with open(os.path.join(os.path.dirname(__file__),"..","properties.jsonl"),"w") as fh:
    for q in P: fh.write(json.dumps(q)+"\n")
print(len(P))
