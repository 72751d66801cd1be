(** * Specification vocabulary for the moments computed by quadrature (C73) *)
From Coq Require Import Reals Qreals.
From Verif Require Import PyBase Refine_Model Zeros_Spec Sum_Model Sum_Spec Quad_Model Quad_Spec Arg_Spec.
Open Scope R_scope.

Definition plus_cR (z w : cR) : cR := (fst z + fst w, snd z + snd w).
Definition minus_cR (z w : cR) : cR := (fst z - fst w, snd z - snd w).
Definition csum (l : list cR) : cR := fold_right plus_cR (0, 0) l.

(** A function of a complex variable, called by the program with points it can represent. *)
Definition called (F : cR -> cR) : cplx -> cR := fun z => F (real_point z).

(** z^k F'(z) / F(z) *)
Definition moment_at (F DF : cR -> cR) (k : nat) (p : cR) : cR := quotient (times (DF p) (power p k)) (F p).

(** On the border of [r], F'(z) / F(z) is the sum of 1 / (z - w) over the listed zeros w
    (one of order k listed k times) plus [q]; no zero is on the border. *)
Definition log_derivative (F DF : cR -> cR) (zeros : list point) (q : cR -> cR) (r : rect) : Prop :=
  (forall w, In w zeros -> ~ on_border r w) /\
  forall p, on_border r p -> F p <> (0, 0) /\
    quotient (DF p) (F p) = plus_cR (csum (map (fun w => quotient (1, 0) (minus_cR p w)) zeros)) (q p).

(** [Q] is a complex primitive of [q] on [r]. *)
Definition primitive_on (r : rect) (Q q : cR -> cR) : Prop :=
  forall x y, zin r (x, y) ->
    derivable_pt_lim (fun t => fst (Q (t, y))) x (fst (q (x, y))) /\
    derivable_pt_lim (fun t => snd (Q (t, y))) x (snd (q (x, y))) /\
    derivable_pt_lim (fun t => fst (Q (x, t))) y (- snd (q (x, y))) /\
    derivable_pt_lim (fun t => snd (Q (x, t))) y (fst (q (x, y))).

(** The second derivative of [y] on the interval is at most [M]. *)
Definition bends_at_most (M : R) (y : R -> R) (a b : R) : Prop :=
  exists y1 y2 : R -> R, forall t, a <= t <= b ->
    derivable_pt_lim y t (y1 t) /\ derivable_pt_lim y1 t (y2 t) /\ Rabs (y2 t) <= M.
(** Along each side of [r] the second derivatives of both parts of [g] are at most [M]. *)
Definition curvature (M : R) (g : cR -> cR) (r : rect) : Prop :=
  forall part : cR -> R, part = fst \/ part = snd ->
    bends_at_most M (fun t => part (g (t, Q2R (y1 r)))) (Q2R (x1 r)) (Q2R (x2 r)) /\
    bends_at_most M (fun t => part (g (t, Q2R (y2 r)))) (Q2R (x1 r)) (Q2R (x2 r)) /\
    bends_at_most M (fun t => part (g (Q2R (x1 r), t))) (Q2R (y1 r)) (Q2R (y2 r)) /\
    bends_at_most M (fun t => part (g (Q2R (x2 r), t))) (Q2R (y1 r)) (Q2R (y2 r)).

(** The sum of the k-th powers of the zeros in [r]. *)
Definition power_sum (zeros : list point) (k : nat) (r : rect) : cR :=
  csum (map (fun w => power w k) (filter (zinb r) zeros)).

(** Products of linear factors and their derivatives. *)
Fixpoint product_of (zeros : list point) (p : cR) : cR :=
  match zeros with [] => (1, 0) | w :: l => times (minus_cR p w) (product_of l p) end.
Fixpoint derivative_of (zeros : list point) (p : cR) : cR :=
  match zeros with
  | [] => (0, 0)
  | w :: l => plus_cR (product_of l p) (times (minus_cR p w) (derivative_of l p))
  end.

(** Romberg's rule on 2^10 + 1 points is off by at most [e] on each side of [r]: F'/F is
    known there as above, and the k-th moment has bounded second derivatives. *)
Definition integrable (F DF : cR -> cR) (zeros : list point) (k : nat) (e : R) (r : rect) : Prop :=
  exists (q Q : cR -> cR) (M D : R),
    log_derivative F DF zeros q r /\
    primitive_on r Q (fun p => times (power p k) (q p)) /\
    curvature M (moment_at F DF k) r /\
    Q2R (x2 r) - Q2R (x1 r) <= D /\ Q2R (y2 r) - Q2R (y1 r) <= D /\
    M * (D * D * D) / (3 * 4 ^ 10) <= e.
