(** * Specification vocabulary for searches with the quadrature estimator (C74) *)
From Coq Require Import Reals Qreals.
From Verif Require Import PyBase Rounding_Model Refine_Model Zeros_Spec Sum_Model Sum_Spec Quad_Spec Arg_Spec Moment_Spec EndToEnd_Spec.
Open Scope R_scope.

(** Angles are converted to turns with an error of at most [eps]. *)
Definition converts (turns : R -> Q) (eps : R) : Prop := forall p, Rabs (Q2R (turns p) - p / (2 * PI)) <= eps.

(** At tolerance 10^-P, Romberg's rule on 2^10 + 1 points integrates F'/F with an error of at
    most e < 1/2000 over every side of every cell of [r]; no zero lies on one. *)
Definition quad_resolved (F DF : cR -> cR) (zeros : list point) (P : Z * Z) (r : rect) : Prop :=
  exists e, e < 1 / 2000 /\ forall q, cell_of P r q -> integrable F DF zeros 0 e q.

(** All zeros keep at least [k] times the longer side away from the sides of each cell. *)
Definition well_inside (k : R) (zeros : list point) (P : Z * Z) (r : rect) : Prop :=
  forall q, cell_of P r q -> exists D, Q2R (x2 q) - Q2R (x1 q) <= D /\ Q2R (y2 q) - Q2R (y1 q) <= D /\
    forall w, In w zeros -> border_distance (k * D) q w.
