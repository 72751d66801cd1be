{
 "C02": {
  "note": "The literal claim (no numerically equal values) is refuted: the same value may be stored with two orders; proved: no duplicate (value, order) pair, and distinct values when the order is a function of the value."
 },
 "C05": {
  "note": "Later filter changes do not re-filter stored roots (refuted); consistency proved when filters are fixed before the adds."
 },
 "C17": {
  "note": "Equality is refuted (serial rounds to p+1 digits, parallel to p); agreement up to that rounding is proved."
 },
 "C24": {
  "note": "Tightness theorems give, for every excess error, a run that loses a zero, and a run reporting a spurious root."
 },
 "C25": {
  "note": "Completeness is refuted (failing secant iteration); proved under converging iterations."
 },
 "C29": {
  "note": "Full progress is refuted (reported leaves advance by 0 because .imag of a float is 0)."
 },
 "C31": {
  "note": "Reporting only converged limits is refuted (final iterates of non-converging starts are reported as well)."
 },
 "C63": {
  "note": "Relative to a reliable estimator (error at most 0.2 turn on every bisection cell, no zero on a cell border); exact arithmetic; C68 is the same in binary64."
 },
 "C70": {
  "note": "No oracle estimator: the modelled estimator with both caches. Sample phases are exact reals; the answer of a line is converted to turns with error at most eps and never to exactly 0 (the result cache takes a stored 0 for a missing entry, C35)."
 },
 "C71": {
  "note": "The property as a user expects it (a used finder finds what a new one finds) is refuted; the positive theorems are C71_reuse and C71_reuse_complete."
 },
 "C72": {
  "note": "argparse, pytest and os.listdir are oracles (the parser is assumed to let through only declared options and choices); the process starts with an empty locator. The two user expectations that fail are stated as C72_unreadable_settings and C72_list_fails_after_install."
 },
 "C73": {
  "note": "Exact reals; scipy.integrate.romb is Romberg's rule (Quad_Spec.romberg), not an oracle here."
 },
 "C74": {
  "note": "No oracle estimator: the modelled quadrature estimator with Romberg's rule and the result cache; exact reals, answers converted to turns with an error of at most 1/25."
 },
 "C75": {
  "note": "Full as stated: the convergence of scipy's newton/secant is a hypothesis (they are oracles); 'exactly once' with a derivative is refuted (C75_once_refuted)."
 },
 "C76": {
  "note": "Full as stated: numpy's polynomial roots are an oracle with a backward error; the perturbation bounds for polynomials of degree 1 to 3 are proved, not assumed. Accuracy of moments to the tolerance alone is refuted as a sufficient condition (C76_conditioning_refuted)."
 },
 "C78": {
  "note": "argparse of Python 3.11 is modelled, not only the calls to it; the model was compared with the real argparse on 4500 random command lines (tools/argparse_check.py). int() and the table of non-ASCII digits are arguments. Help, usage and error texts are not modelled."
 },
 "C79": {
  "note": "Simplifications: float literals count as zero by their digits (underflow to 0.0 is not modelled); decoding of bytes and permission errors are not modelled. The false expectation is C79_checks_refuted."
 },
 "C84": {
  "note": "False expectation: C84_once_refuted. Rounding of finite values is exact (as in C08); finite values so large that rounding them overflows are not modelled."
 },
 "C85": {
  "note": "False expectations: C85_error_refuted, C85_other_zeros_refuted. The estimator is arbitrary; how numpy's complex division produces nan inside it is not modelled."
 },
 "C86": {
  "note": "False expectation: C86_single_point_refuted. C86_line, C86_line_exact and C86_defined are for levels not cached before and lines without zeros on sample points; C86_corner for functions without zeros. Infinite function values are not modelled."
 },
 "C87": {
  "note": "Counts requests to the estimator (calcMoment), not evaluations of f: how many points one request samples is the subject of C37. The lower bound is for the simple algorithm, whose search always goes down to the tolerance."
 },
 "C88": {
  "note": "C88_border_refuted: the condition on contour zeros cannot be dropped. The scipy/numpy solvers (secant, newton, polyroots) are the same oracles in both runs: what they evaluate is not part of the claim; filters are given the same function in both finders."
 },
 "C89": {
  "note": "Exact arithmetic: with floats a factor that is no power of two changes roundings. The scipy/numpy solvers (secant, newton, polyroots) are the same oracles in both runs and the filters are given the same function."
 },
 "C90": {
  "note": "The rounding of the sample positions, of f, of the quotient and of arctan2 is in the hypothesis phases_within (accuracy eps); the additions, the refinement factor and the threshold are rounded in the model. Overflow to infinity does not occur for sums of phases."
 },
 "C91": {
  "note": "C91_samples bounds arrays that are returned; that the request returns is C38/C91_rounds (zero-free segments) - with zeros on the segment the shift loop of genFuncArr may run on (C39, C65). C91_default inherits the hypotheses of C90_rectangle."
 }
}