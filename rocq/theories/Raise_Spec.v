(** * Specification: target functions that raise (C92) *)
From Coq Require Import Reals.
From Verif Require Import PyBase Sum_Spec.
Open Scope Z_scope.

(** What follows is a beginning of the list [l]. *)
Definition beginning {A} (l1 l : list A) : Prop := exists l2, l = l1 ++ l2.

(** A call that either answers like another one, or raises an exception of the set [own]. *)
Definition answers_or_raises {A} (own : exn -> Prop) (x y : res A) : Prop :=
  x = y \/ exists e, x = Err e /\ own e.

(** [own]: the exceptions the function may raise, in the samples [raises] of one call, or in
    scipy's secant and Newton iterations. *)
Definition only_raises (own : exn -> Prop) (raises : list cplx -> option exn) : Prop :=
  forall zs e, raises zs = Some e -> own e.

(** Requests for this function and these settings. *)
Definition for_function (f : cplx -> cR) (deltaPhi : R) (maxPrecision : Q) (numPts : nat) (precision : Z * Z) (q : request) : Prop :=
  rq_f q = f /\ rq_delta q = deltaPhi /\ rq_maxprec q = maxPrecision /\ rq_numPts q = numPts /\ rq_precision q = precision.
