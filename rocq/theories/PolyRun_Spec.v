(** * Exact data for the polynomial variant (C26) *)
From Coq Require Import Permutation.
From Verif Require Import PyBase Poly_Model Refine_Model Refine_Spec Poly_Spec.
Open Scope Z_scope.

(** The zeros (listed with multiplicity) lying in a rectangle. *)
Definition zeros_in (r : rect) (zeros : list cplx) : list cplx :=
  filter (fun z => Qle_bool (x1 r) (re z) && Qle_bool (re z) (x2 r) &&
                   Qle_bool (y1 r) (im z) && Qle_bool (im z) (y2 r)) zeros.

(** Every moment computed in the run [l] was computed without error and is the power sum of
    the zeros in its rectangle; order 0 gives their number. *)
Definition exact_moments (zeros : list cplx) (l : list event) : Prop :=
  forall k q m, In (EvMoment k q m) l ->
    exists v, m = Ok v /\ ceq v (power_sum (zeros_in q zeros) (Z.to_nat k)).
