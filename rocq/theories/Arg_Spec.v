(** * Specification vocabulary for the argument principle (C69-C71) *)
From Coq Require Import Reals Qreals.
From Verif Require Import PyBase Refine_Model Zeros_Spec Sum_Model Sum_Spec.
Open Scope R_scope.

(** ** Functions with known zeros *)
Definition cmulR (a b : cR) : cR := (fst a * fst b - snd a * snd b, fst a * snd b + snd a * fst b).
(** z - w *)
Definition minus_zero (z : cplx) (w : point) : cR := (Q2R (re z) - fst w, Q2R (im z) - snd w).
Fixpoint zero_product (zeros : list point) (z : cplx) : cR :=
  match zeros with
  | [] => (1, 0)
  | w :: l => cmulR (minus_zero z w) (zero_product l z)
  end.

Definition in_rect (r : rect) (z : cplx) : Prop :=
  (x1 r <= re z <= x2 r /\ y1 r <= im z <= y2 r)%Q.

(** On the rectangle [r], f(z) is the product of z - w over the listed zeros w (one of order
    k is listed k times) and a factor without zeros, whose argument changes by at most [L]
    per unit of length (0 for polynomials, 1 for exp). *)
Definition factorised (f : cplx -> cR) (zeros : list point) (L : R) (r : rect) : Prop :=
  (forall z z', ceq z z' -> f z = f z') /\ 0 <= L /\
  exists rho theta : cplx -> R,
    (forall z, in_rect r z -> 0 < rho z /\
       f z = cmulR (zero_product zeros z) (rho z * cos (theta z), rho z * sin (theta z))) /\
    (forall z z', in_rect r z -> in_rect r z' ->
       Rabs (theta z' - theta z) <= L * (Rabs (Q2R (re z' - re z)) + Rabs (Q2R (im z' - im z)))).

(** ** Sampling *)
Definition on_border (r : rect) (p : point) : Prop := zin r p /\ ~ zstrict r p.
(** The point [w] is at least [d] away from the border of [r]. *)
Definition border_distance (d : R) (r : rect) (w : point) : Prop :=
  forall p, on_border r p -> d <= dist_euc (fst p) (snd p) (fst w) (snd w).

(** With [n] points per side, the argument of f changes at most by [eta] between neighbours:
    some [d] bounds the distance of all zeros to the border from below, and the spacing
    times L + (number of zeros) / d is at most [eta]. *)
Definition well_sampled (n : nat) (eta L : R) (zeros : list point) (r : rect) : Prop :=
  exists d, 0 < d /\ (forall w, In w zeros -> border_distance d r w) /\
    Q2R (x2 r - x1 r) / INR (n - 1) * (L + INR (List.length zeros) / d) <= eta /\
    Q2R (y2 r - y1 r) / INR (n - 1) * (L + INR (List.length zeros) / d) <= eta.
