(** * Specification vocabulary for searches with the summation estimator *)
From Coq Require Import Reals Qreals.
From Verif Require Import PyBase Rounding_Model Refine_Model Zeros_Spec Sum_Model Sum_Spec Arg_Spec EndToEnd_Spec.
Open Scope R_scope.

(** Angles are converted to turns with an error of at most [eps], and never to exactly 0. *)
Definition faithful (turns : R -> Q) (eps : R) : Prop :=
  (forall p, Rabs (Q2R (turns p) - p / (2 * PI)) <= eps) /\ forall p, ~ (turns p == 0)%Q.

(** On [r], at tolerance 10^-P, [n] sample points per side are enough: f is a product of
    linear factors times a function without zeros, no zero is on or too close to a side of a
    cell, and four sides together are off by at most a fifth of a turn. *)
Definition resolved (f : cplx -> cR) (zeros : list point) (n : nat) (eps : R) (P : Z * Z) (r : rect) : Prop :=
  exists L eta, factorised f zeros L r /\
    (forall q, cell_of P r q -> well_sampled n eta L zeros q) /\
    4 * eta / PI + 4 * eps <= 1 / 5.

(** The sample points on a vertical side of [r] lie closer than half the tolerance. *)
Definition dense (n : nat) (P : Z * Z) (r : rect) : Prop :=
  (2 * (y2 r - y1 r) <= inject_Z (Z.of_nat (n - 1)) * pow10 (- snd P))%Q.

(** No line on the level of a side of a cell is in the internal caches. *)
Definition untouched (st : sum_state R) (P : Z * Z) (r : rect) : Prop :=
  forall q, cell_of P r q ->
    level_free st true (y1 q) /\ level_free st true (y2 q) /\ level_free st false (x1 q) /\ level_free st false (x2 q).

(** No side of a cell of the one search continues a side of a cell of the other. *)
Definition no_common_level (P : Z * Z) (r : rect) (P' : Z * Z) (r' : rect) : Prop :=
  forall q q', cell_of P r q -> cell_of P' r' q' ->
    ~ (y1 q == y1 q')%Q /\ ~ (y1 q == y2 q')%Q /\ ~ (y2 q == y1 q')%Q /\ ~ (y2 q == y2 q')%Q /\
    ~ (x1 q == x1 q')%Q /\ ~ (x1 q == x2 q')%Q /\ ~ (x2 q == x1 q')%Q /\ ~ (x2 q == x2 q')%Q.
