(** * A search with the quadrature estimator and the result cache *)
From Coq Require Import Reals Qreals.
From Verif Require Import PyBase Refine_Model Cache_Model Quad_Model.
Open Scope Z_scope.

(** [QuadratureEstimator.calcMomentAlongLine] (quad_estimator.py:40-113) as the line method of
    [ArgumentEstimator.calcMoment] (argument_estimator.py:27-79).  It keeps no state of its
    own.  The search compares multiples of 2 pi (algorithms/constants.py), so here the answer
    is converted to turns; [turns] is the conversion of each part, which also covers the
    rounding of the answer.  A call that does not end has no counterpart here; it is mapped
    to an exception. *)
Definition quad_turn_line (turns : R -> Q) (romb : list R -> R -> R) (f : cplx -> R * R) (df : option (cplx -> R * R))
    (precision : Z * Z) (fuel : nat) (order : Z) (zStart zEnd : cplx) (u : unit) : unit * list cplx * res cplx :=
  match quad_line romb f df precision fuel (Z.to_nat order) zStart zEnd with
  | QuadOk found v => (u, found, Ok (turns (fst v), turns (snd v)))
  | QuadRaises e => (u, [], Err e)
  | QuadHangs => (u, [], Err RuntimeError)
  end.

(** quad_estimator.py:40-113 and argument_estimator.py:27-79: the estimator of a search. *)
Definition quad_env (turns : R -> Q) (romb : list R -> R -> R) (f : cplx -> R * R) (df : option (cplx -> R * R))
    (precision : Z * Z) (fuel : nat) (debug : bool)
    (secant : cplx -> cplx -> res cplx) (newton : cplx -> res cplx)
    (polyroots : list cplx -> res (list cplx)) (has_df progress : bool) : env (ecache * unit) :=
  cached_env (quad_turn_line turns romb f df precision fuel) debug
    secant newton polyroots has_df precision progress.
