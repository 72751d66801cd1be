# Formal model of PyZEAL in Rocq (Coq 8.16.1)

Layout (`rocq/theories/`): for each subsystem four kinds of file

* `X_Model.v`  – the model, function by function, each definition citing file and lines in `/repo`;
* `X_Spec.v`   – small independent specification vocabulary (may be inside the `_Props` file when tiny);
* `X_Proofs.v` – lemmas and proofs;
* `X_Props.v`  – only the property theorems (`exact lemma. Qed.`), each followed by `Print Assumptions`,
  and the `Example`s showing that concrete, non-trivial cases meet their hypotheses.

`properties.jsonl` lists the properties; `MANIFEST.json` maps each property to its theorems;
`seeded/LOG.jsonl` logs the mutation tests of the theorems.

## General modelling decisions

* **Numbers.** Coordinates are exact rationals `Q`, compared with `Qeq`/`Qle` and the boolean versions.
  Every finite double is a rational, so inputs are represented exactly. Most models compute exactly;
  the refinement, the widened domain and the job grid also exist with every operation rounded
  (`Float_*`, `FloatGrid_*`, IEEE binary64 shown equal to Flocq's `round`). *Overflow, NaN, infinities
  and signed zero are not modelled*, and neither is rounding elsewhere (stated per file). `round(x, n)` is
  modelled as correctly rounded half-to-even to n decimals (CPython's algorithm, up to the final
  binary conversion).
* **Angles** are measured in turns (phi / 2pi), so the constants 0.8, 1.3 and 3.4 of
  `algorithms/constants.py` appear without pi.
* **Exceptions** are values: `res A := Ok a | Err exn`.
* **Python dict** = insertion-ordered association list; **set** = duplicate free list whose iteration
  order is an arbitrary permutation.
* **External code is an argument** (oracle) of the model: user function `f`, derivative, `scipy`'s
  Newton/secant, `numpy` polyroots, line integrals, the file system content, the import system, class
  hierarchies (`isinstance`). Theorems quantify over them; assumptions about them are visible
  hypotheses of the theorem.
* **Loops/recursion** of unknown length run on explicit fuel with an explicit out-of-fuel value, and
  termination theorems exclude that value.

## Plan per property

| id | model | proof |
|----|-------|-------|
| C01–C07 | RoundingContainer as state machine (`Container_Model`) with op list histories | invariants by induction on histories; refinement to a trace specification; log level as per-call oracle |
| C08 | half-even rounding on `Q` (`Rounding`) | arithmetic (lia/lra/nia) |
| C09 | PlainContainer with queue and list, `Put` by others | FIFO refinement |
| C10 | filters as functions over context | unfolding + history invariant |
| C11 | `desymmetrizeDomain` | lra |
| C12–C14 | calculateRoots as history of container ops emitted by an arbitrary algorithm trace, prefix = interruption | container trace theorem |
| C15 | linspace grid jobs | induction/arithmetics: cover, inside, disjoint interiors |
| C16–C18 | schedules = interleavings of worker outputs (permutations), drain loop | permutation invariance of contents |
| C19 | integer arithmetic | lia |
| C20–C26, C29, C30 | `decideRefinement` of the three variants with fuel, arbitrary stateful estimator | induction on measure; additive area and membership; correctness relative to estimator hypothesis |
| C27 | coefficientsFromMoments over an arbitrary commutative ring with division by positive integers (`ring_theory` of the standard library) and its rational-complex instance | Newton identities on generating lists |
| C28 | grouping fold | invariants by induction |
| C31 | NewtonGrid loops | list equations |
| C32–C35 | EstimatorCache + calcMoment | refinement to a finite map; coherence invariant |
| C36, C37 | phases as rationals in turns, principal value `x - rnd(x)` | integer/telescoping arguments |
| C38–C43 | summation estimator: sample arrays as lists, `phi` oracle | measures, slices, list lemmas; refutations by vm_compute |
| C44 | quadrature sampling | list/grid lemmas |
| C45–C49 | ServiceLocator state machine with class oracle | case analysis, induction on histories and on resolution depth |
| C50 | global slots state machine | induction |
| C51–C55 | JSON file as option of key/value object; services as state machine; crash/interleaving steps | induction on histories; finite interleaving analysis for all values |
| C56–C58 | factories and CLI | case analysis; string upper-casing |
| C59–C60 | file system as finite map of paths | map lemmas |
| C61, C62 | init modes / logger registry | induction |
| C63 | `EndToEnd_*`: finder, algorithm, desymmetrized domain and container composed, serial and parallel | C11, C15, C16, C20–C23, C01–C08 put together |
| C64 | request sequences of the summation estimator (`Sum_*`) | history invariant for horizontal lines, witness history for vertical ones |
| C65 | `Float_*`: the refinement with a rounding function after every operation; `rnd64` computes binary64 | big-step relation, monotone rounding keeps midpoints between the ends; error recurrence for the depth bound; spacing of doubles for the precision limit; an endless search by induction on the recursion bound |
| C66 | `FloatGrid_*`: `desymmetrizeDomain`, `numpy.linspace`, `createRootJobs` rounded | monotone rounding, relative error of three operations, product grids |
| C67 | `FloatCont_*`: Python's and numpy's `round` on doubles, the container using them | nearest-double argument; gaps between doubles are powers of two, hence never 10^-n; simulation of the exact container over all histories |
| C68 | `FloatEnd_*`: serial and parallel `calculateRoots`, argument algorithm and container composed with a rounding after every operation | error bounds of domain, midpoints, size test and `round` (C65-C67) combined with the structure of the exact proof (C63): cells contain the zero, distinct cells have disjoint interiors |
| C69 | `Arg_*`: f = product of (z - w) times a zero-free factor with Lipschitz argument, on top of the summation estimator model | explicit angle functions (arctan) per zero and side, mean value theorem for the sampling bound, corner identity atan u + atan 1/u; termination with no zero met |
| C70 | `Whole_*`: finder, argument algorithm, result cache and summation estimator with its internal line caches composed; angles converted to turns by any map with error eps that never answers 0 | invariant over the bisection tree: every cached value belongs to a cell side and is right up to two sample steps, every internal entry on a cell level covers the side it is used for (entries of ancestors are longer); then agreement with a repaired estimator and C63 |
| C71 | the same, after any list of earlier searches (`after_searches`) | frame: a search touches internal levels of its own cells only; refutation: two concrete searches, angle lost on the stale sides at least a quarter turn (atan bounds), for all sample numbers >= 1001 |
| C72 | mainPyZEAL end to end: initialization, parser results (argparse as oracle), view/change/plugin/test handlers, abspath over the file tree | the run split by subcommand; paths by induction over components; histories by an invariant (settings readable) and two frames |
| C73 | quad_estimator.py calcMomentAlongLine with scipy's Romberg rule, over the reals, for functions with a known logarithmic derivative | trapezoid error by Taylor expansion per cell, Romberg as a convex-type combination of trapezoids; explicit primitives (ln, arctan2 with the branch turned away from the side) of 1/(z-w) and of polynomials; winding of each pole summed over the border |
| C74 | C73's estimator under the result cache inside calcRoots, calculateRoots and the parallel finder | every cached order-0 value is within eps of the line's value (invariant over store/remove/reset); the run equals one with a reliable estimator, then C63 |
| C75 | decide_newton with the iterations as oracles, in calcRoots, calculateRoots and the parallel finder, for both estimators | invariant `spotted` (each zero of the part done so far has a report near it, each report belongs to a zero, orders) by induction over the recursion; estimators by the same agreement with a reliable one as C70/C74; double report refuted by computation |
| C76 | decide_poly with the polynomial solver as oracle, moments of order 1..3 with the result cache, Newton's identities, grouping, in calcRoots, calculateRoots and the parallel finder | errors of the coefficients from errors of the moments; perturbation of the roots of polynomials of degree 1..3 (products of distances, matching by the sum of the roots); then the invariant of C75; the quadrature estimator by agreement with a patched environment, as in C74; refutation by computation |
| C77 | `Coupled_Model.v`: the three algorithms once more, in a monad whose state contains the container, so that a raising filter strikes in the middle of a run and inside the Newton variant's `try`. Proved equal (simulation, by induction on the depth) to the list-then-store model of the other files, for the Newton variant with iterations that give up where the filters raise a RuntimeError. |
| C78 | the parser of cli/cli_parser.py together with the part of Python 3.11's argparse it uses (classification of words, consumption of options and letters, nargs, choices, abbreviations, subparsers) | a grammar (`Argparse_Spec.v`) equivalent to acceptance, both directions by induction over the words; exit codes by induction; whole commands by composing with C57 and C72 |
| C79 | the constructors of the JSON settings services over arbitrary file contents (JSON parser of `Json_Model.v`) | a specification of which JSON value is read as what (`Hand_Spec.v`), equivalent to success; the errors by cases |
| C80 | `Chunk_*`: `starmap` with its explicit chunk size (`_get_tasks`, `starmapstar`), the state of one pickled finder passed from job to job | slices of the job list by induction; a chunked pool is a pool of single jobs started in the states actually reached (`pool_single`), so C63 applies; C80_quadrature from C33; for the summation estimator (C70/C75 parallel) the entries left by the job below are followed through the search (`lower`); the refutation follows one search that cuts its upper side (`run_cut`), computes the angle the job above misses (`above_moment`, `lost_angle`) and shows the whole pool to act as if f had only one zero |
| C81 | the parser and printer of `Json_Model.v` against an inductive grammar (`JsonText_Spec.v`: strings with escapes, numbers, values, documents, dictionaries with duplicates) that shares no function with the model; `contents`/`unreadable`, used by C51-C55 and C79, are defined by this grammar | soundness by induction on the fuel, completeness by mutual induction on the grammar; layout independence and ASCII output follow |
| C82 | `GridEnd_*`: `Grid_Model.v` composed with the serial and parallel finder and the rounding container; scipy's Newton iteration stays an oracle | C16 and a general characterisation of serial searches; nearest point of an even grid; rounding away from ties; witness for the double report |
| C83 | `LogFinder_*`: `RootFinder.setLevel` on top of `Log_Model.v`, classes mapped to their modules | histories of `Log_Spec.v` extended by the three calls; witness for the estimator |
| C84 | `Nan_Model.v`: the rounding container, the two predefined filters and the loop of Newton on a grid over floats with nan and infinities (rounding of finite values exact) | history inductions; simulation by `Container_Model.v` on finite values; multiset characterisation of the contents; counterexample to "each root once" |
| C85 | `NanRefine_Model.v`: the refinement with phases that may be nan or infinite; Newton and polynomial steps reused from `Refine_Model.v` | simulation by the finite search with unclear phases replaced by four turns, then C20 and C21; counterexamples by computation |
| C86 | `NanSum_Model.v`: the summation estimator of `Sum_Model.v` with phases that may be nan, the loop over the sides with its cache, the search of `NanRefine_Model.v` on top | sample chains of C37 for phases in option R; map-simulation for total functions; invariant of both caches along the lower left corner |
| C87 | the search of `Refine_Model.v` for all three algorithms; its log counts the requests to the estimator | induction on the big-step relation `runs`: a split costs two requests, has a zero below it and uses up one halving; zeros of the halves add up |
| C88 | `calcRoots` with the summation and the quadrature estimator (`Whole_Model.v`, `Qsearch_Model.v`) and `calculateRoots` of the finder (`EndToEnd_Model.v`), run with two functions | the sample points of a line lie in the domain unless a sample is a zero (then shifted upwards/right and reported); simulation of the two runs, line by line; induction over the jobs of a pool task (`LocalPar_*`); witness: a zero in the upper left corner |
| C89 | the searches of C88 and `calculateRoots`, run with f and with a multiple of f | arctan2 of the quotient of two values, and f'/f, are unchanged by the factor; then the simulation of C88 |
| C90 | `calcMomentAlongLine` of the summation estimator with computed phases (`FloatSum_Model.v`: the generic `sumLine` of `Sum_Model.v` with lists of doubles as phases), numpy's sum as any order and grouping of rounded additions, `calcMoment`'s rounded accumulation | relative error of one rounded addition (Flocq), induction over the grouping; the chain of samples and the winding number from C69 |
| C91 | as C36-C43 and C90 | invariant of the refinement loop: after k rounds at least n + 50 k (k+1) - 2 k points, at most one factor more than the cap; induction over the history for the caches; the rounded factor bounded by Flocq's relative error |
| C92 | the estimators with every call of f and df made explicit and allowed to raise (Raise_Model), as a function of the samples of the call | relation between two runs: equal, or the second ends with an exception after a beginning of the first's reports; induction over shift, refinement, edges and the whole search; the caches by an invariant of the search |
| C93 | the process's console (bars ever made, displays live), the bar's operations and calculateRoots around the call of the algorithm (Display_Model); rich's rule of one live display per console before 14.1 is assumed as described there (a flag selects newer releases) | one call with a free and with a busy console, then induction over the history; the finder of Finder_Model.v as an instance; violated in general, see C93_later_searches_refuted, C93_hidden_refuted |
| C94 | addRoot and the other calls of the rounding container, getRoots of the plain one and calculateRoots as sequences of instructions, cut off after any number of them (Instant_Model); a request to the summation estimator cut off between the dictionary operations of its line cache (CutSearch_Model). One instruction is one statement or call of the code that changes the container; single dict, list and queue operations are atomic (CPython's GIL, signals are handled between bytecodes) | each call cut off equals a short history of complete calls (at most one clear added), then induction over the history; the search by the sequence of reports handled; reuse from C71's frame lemma, extended to cut requests; the display from C93's lemmas (CutDisplay_Model); C94_quadrature from C33; the search made again: the lines of both searches one by one as in C71's refutation (CutResume_Proofs); violated: C94_resume_refuted, C94_nothing_lost_refuted, C94_plain_loses_refuted, C94_search_again_refuted |

## Which code is modelled

| files under `/repo/pyzeal` | model | left out |
|---|---|---|
| `utils/containers/rounding_container.py`, `plain_container.py`, `root_container.py`, `utils/filter_context.py`, the filters in `utils/factories/container_factory.py` | `Container_Model.v`, `Nan_Model.v`, `Rounding_Model.v`, `Instant_Model.v` (the calls as sequences of instructions an interrupt can stop after) | texts of log messages (their level is an oracle argument) |
| `rootfinders/rootfinder.py`, `parallel_finder.py`, `utils/root_context.py` | `Finder_Model.v`, `EndToEnd_Model.v`, `Chunk_Model.v` (chunks of the pool), `GridEnd_Model.v`, `LogFinder_Model.v` (`setLevel`), `Instant_Model.v`, `CutDisplay_Model.v` (interrupted at any instant), `Display_Model.v` (the progress display, with `utils/finder_progress.py`; rich's live displays are described by one rule: at most one per console, else LiveError; the drawing itself and rich's threads are not modelled) | drawing of the progress bar; process start-up (the order in which workers put roots is arbitrary) |
| `algorithms/simple_holo.py`, `simple_holo_newton.py`, `polynomial_holo.py`, `constants.py` | `Refine_Model.v`, `Poly_Model.v`, `Coupled_Model.v`, `NanRefine_Model.v` | log messages |
| `algorithms/wrappers/classical_polynomial.py` | `Poly_Model.v` | numpy's root finder itself (an oracle) |
| `algorithms/newton_grid.py` | `Grid_Model.v`, `GridEnd_Model.v` | scipy's Newton iteration (an oracle) |
| `algorithms/estimators/estimator_cache.py`, `argument_estimator.py` | `Cache_Model.v`, `genFuncArr` in `Sum_Model.v` | |
| `algorithms/estimators/sum_estimator.py` | `Sum_Model.v`, `NanSum_Model.v`, `FloatSum_Model.v`, `Raise_Model.v` (also `quad_estimator.py`), `CutSearch_Model.v` (a request cut off between its dictionary operations) | floating point arctan2 (real arctan2 in `Sum_*`) |
| `algorithms/estimators/quad_estimator.py` | `Quad_Model.v` | `scipy.integrate.romb` is an argument (Romberg's rule in `C44_romberg` and in C73) |
| `utils/service_locator.py`, `lambda_wrapper.py` | `Locator_Model.v`, `Lambda_Model.v` | factories do not change the locator |
| `settings/*.py`, `default_settings.json`, enumerations in `pyzeal_types/` | `Json_Model.v` (the standard library's json codec), `Settings_Model.v` | encoding errors, permissions, re-formatting of floats, recursion/digit limits of the codec |
| `utils/factories/*.py`, constructors | `Factory_Model.v` | |
| `cli/*.py` | `Cli_Model.v`, `Main_Model.v`, `Argparse_Model.v` (the part of the standard library's argparse that is used; C72 takes the parser as an argument, C78 instantiates it) | texts of help and errors, `int()` of a string and Unicode digit and case tables (arguments), pytest (an argument), colours |
| `plugins/*.py` | `Install_Model.v`, `Loader_Model.v` | symbolic links, permissions; the import system is an argument |
| `pyzeal_logging/*.py` | `Log_Model.v` | handler levels, `propagate`, dotted logger names |
| `utils/initialization_handler.py` | `Init_Model.v` | the messages it logs |

Not modelled at all: overflow; NaN and infinities outside `Nan_*`, `NanRefine_*`, `NanSum_*`; floating point rounding outside `Float_*`, `FloatGrid_*`, `FloatCont_*`, `FloatEnd_*`, `FloatSum_*`; the C
library's `pow` behind `10 ** (-p)` (any double is allowed there); plotting/GUI code, `tests/`, the benchmark and
documentation directories; the running time of anything.

## Trusted base

* Coq's kernel (8.16.1; `vcheck` also runs `coqchk`). No plugin, no axiom of our own, no disabled check.
* The reading of the Python source recorded in the comments of the `*_Model.v` files (each definition cites
  file and lines and says what it simplifies), including the models of Python's dict, set, `round`, json,
  posixpath and logging.
* The statements in `*_Props.v` and the vocabulary in `*_Spec.v`.
* The axioms of Coq's standard library printed by `Print Assumptions` (regenerate with `tools/axioms.py`):

**No axioms** (315 theorems): all those not listed below.

`ClassicalDedekindReals.sig_forall_dec`, `FunctionalExtensionality.functional_extensionality_dep` (36 theorems): C23_correct_relative_to_estimator, C23_orders_of_separated_zeros, C24_tight_spurious_root, C24_tight_zero_lost, C25_complete_if_iterations_converge, C25_completeness_refuted, C39_always_terminates_refuted, C39_result, C39_terminates, C39_zero_test, C44_romberg, C63_any_depth, C63_parallel_any_depth, C63_parallel_search, C63_serial_search, C65_correct_relative_to_estimator, C73_count, C73_derivative, C75_complete, C75_once_refuted, C75_parallel, C75_parallel_complete, C75_serial, C80_reliable_any_depth, C80_reliable_estimator, C82_found, C82_genuine, C82_nonvacuous, C82_once, C82_once_refuted, C82_parallel_found, C87_empty_domain, C87_least_effort, C87_linear_in_zeros, C87_one_zero, C92_reported_doubling.

`ClassicalDedekindReals.sig_forall_dec`, `ClassicalDedekindReals.sig_not_dec`, `FunctionalExtensionality.functional_extensionality_dep` (28 theorems): C44_answers, C44_constant, C44_reversal, C44_sampling, C44_terminates, C44_true_length_refuted, C44_value, C74_polynomial, C76_complete, C76_conditioning_refuted, C76_parallel, C76_parallel_complete, C76_polynomial, C76_serial, C80_quadrature, C88_quadrature_beyond, C88_quadrature_domain, C88_quadrature_parallel, C88_quadrature_parallel_beyond, C89_quadrature, C89_quadrature_everywhere, C89_quadrature_parallel, C90_tolerance, C92_quadrature, C92_quadrature_finder, C92_quadrature_parallel, C92_quadrature_silent, C94_quadrature.

`ClassicalDedekindReals.sig_forall_dec`, `ClassicalDedekindReals.sig_not_dec`, `Classical_Prop.classic`, `FunctionalExtensionality.functional_extensionality_dep` (105 theorems): C36_closed_sequence, C36_rectangle, C37_line, C37_rectangle, C37_sequence, C37_without_bound_refuted, C38_bound, C38_end_points_refuted, C38_result, C38_samples_on_line, C38_terminates, C39_line_reports, C39_line_reports_all, C40_split, C41_cached_start, C41_fresh_level, C41_history_independent_refuted, C41_requery, C42_reversal_horizontal, C42_reversal_vertical, C43_errors_keep_state, C43_higher_orders_rejected, C43_oblique_rejected, C64_horizontal_never_raises, C64_vertical_never_raises_refuted, C65_always_terminates_refuted, C65_binary64, C65_precision_limit, C65_search_terminates, C66_domain_encloses_request, C66_jobs_tile_domain, C66_margin_always_kept_refuted, C66_margin_kept, C66_narrow_domain_refuted, C67_container, C67_numpy_rounding, C67_python_rounding, C67_same_rounding_refuted, C68_any_depth, C68_parallel_any_depth, C68_parallel_search, C68_powers_of_ten, C68_serial_search, C69_argument_principle, C70_complete, C70_parallel, C70_parallel_complete, C70_serial, C71_reuse, C71_reuse_complete, C71_second_search_refuted, C73_moments, C73_polynomial, C74_complete, C74_parallel, C74_parallel_complete, C74_serial, C75_quadrature_complete, C75_quadrature_parallel, C75_quadrature_parallel_complete, C75_quadrature_serial, C75_summation_complete, C75_summation_parallel, C75_summation_parallel_complete, C75_summation_serial, C76_quadrature_complete, C76_quadrature_parallel, C76_quadrature_parallel_complete, C76_quadrature_serial, C80_sharing_refuted, C86_corner, C86_defined, C86_line, C86_line_exact, C86_nonvacuous, C86_search, C86_single_point_refuted, C86_total, C88_beyond, C88_border_refuted, C88_domain, C88_finder, C88_finder_beyond, C88_parallel, C88_parallel_beyond, C89_finder, C89_parallel, C89_parallel_everywhere, C89_summation, C89_summation_everywhere, C90_decisions, C90_rectangle, C90_sum_error, C91_default, C91_memory, C91_numbers, C91_rounds, C91_samples, C92_caches, C92_finder, C92_parallel, C92_search, C92_silent, C94_resume_refuted, C94_reuse.

These are the axioms of the standard library's real numbers (Dedekind reals, functional extensionality) and,
through trigonometry, classical logic. They are used where zeros of a function are real points, for quadrature
over the reals and for the real arctan2.

## Wrong programs

`tools/mutate.py` applies edits to a scratch copy of the models (`seeded/m*.json`), rebuilds, and records which
property theorems no longer hold by their proofs; `seeded/LOG.jsonl` has one line per attempt, with the theorems
that were tightened because of it.
