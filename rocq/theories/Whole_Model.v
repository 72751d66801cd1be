(** * A search with the summation estimator and both of its caches *)
From Coq Require Import Reals Qreals.
From Verif Require Import PyBase Finder_Model Refine_Model Cache_Model Sum_Model Sum_Spec EndToEnd_Model.
Open Scope Z_scope.

(** [SumEstimator.calcMomentAlongLine] (sum_estimator.py:80-115) as the line method of
    [ArgumentEstimator.calcMoment] (argument_estimator.py:27-79).  The search compares
    multiples of 2 pi (algorithms/constants.py), so here the answer is converted to turns;
    [turns] is the conversion, which also covers the rounding of the answer.  A call that
    does not end has no counterpart here; it is mapped to an exception. *)
Definition turn_line (turns : R -> Q) (f : cplx -> cR) (deltaPhi : R) (maxPrecision : Q) (numPts : nat)
    (precision : Z * Z) (fuel : nat) (order : Z) (zStart zEnd : cplx) (st : sum_state R)
    : sum_state R * list cplx * res cplx :=
  match sum_line f deltaPhi maxPrecision numPts precision fuel order zStart zEnd st with
  | (st', SumOk found p) => (st', found, Ok (turns p, 0%Q))
  | (st', SumErr e) => (st', [], Err e)
  | (st', SumLoops) => (st', [], Err RuntimeError)
  end.

(** The estimator of a new finder: both caches empty (sum_estimator.py:70-71,
    estimator_cache.py:23-31). *)
Definition new_estimator : ecache * sum_state R := (new_cache, fresh_sum).

(** sum_estimator.py:80-115 and argument_estimator.py:27-79: the estimator of a search. *)
Definition sum_env (turns : R -> Q) (f : cplx -> cR) (deltaPhi : R) (maxPrecision : Q) (numPts : nat)
    (precision : Z * Z) (fuel : nat) (debug : bool)
    (secant : cplx -> cplx -> res cplx) (newton : cplx -> res cplx)
    (polyroots : list cplx -> res (list cplx)) (has_df progress : bool) : env (ecache * sum_state R) :=
  cached_env (turn_line turns f deltaPhi maxPrecision numPts precision fuel) debug
    secant newton polyroots has_df precision progress.

(** The estimator belongs to the algorithm object and that to the finder (rootfinder.py:74-96,
    simple_holo.py:42-74), so one search leaves its caches to the next: state after the
    search [x], and after a sequence of searches (each with the recursion depth available)
    of a new finder. *)
Definition leaves {S} (E : env S) (depth : nat) (x : rctx) (s : S) : S :=
  fst (fst (calcRoots (env_for E x) Simple depth (rect_of x) s)).
(** The caches after several searches with one finder, rootfinder.py:155-157. *)
Definition after_searches {S} (E : env S) (h : list (rctx * nat)) (s : S) : S :=
  fold_left (fun s xd => leaves E (snd xd) (fst xd) s) h s.
