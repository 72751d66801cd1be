(** * Specification vocabulary for what a search looks at (C88) *)
From Coq Require Import Qminmax.
From Verif Require Import PyBase Refine_Model Refine_Spec.
Open Scope Z_scope.

(** Two functions with the same values on a rectangle, and above and to the right of its
    lower left corner. *)
Definition same_on {A} (r : rect) (f g : cplx -> A) : Prop :=
  forall z, inside r z -> f z = g z.
Definition same_beyond {A} (r : rect) (f g : cplx -> A) : Prop :=
  forall z, (x1 r <= re z)%Q -> (y1 r <= im z)%Q -> f z = g z.

(** The same for an optional derivative. *)
Definition both {A} (P : A -> A -> Prop) (a b : option A) : Prop :=
  match a, b with Some x, Some y => P x y | None, None => True | _, _ => False end.

(** No zero was met on a sample point of a contour: no root of order 0. *)
Definition no_contour_zero (l : list event) : Prop := forall z, ~ In (z, 0) (roots_of l).

(** The requested rectangle (end points in any order) with the margins of C11: one unit of the last decimal
    to the left, two to the right, three below and four above. *)
Definition near_request (reRan imRan : Q * Q) (P : Z * Z) (z : cplx) : Prop :=
  (Qmin (fst reRan) (snd reRan) - pow10 (- fst P) <= re z <= Qmax (fst reRan) (snd reRan) + 2 * pow10 (- fst P) /\
   Qmin (fst imRan) (snd imRan) - 3 * pow10 (- snd P) <= im z <= Qmax (fst imRan) (snd imRan) + 4 * pow10 (- snd P))%Q.
