(** * Specification vocabulary for phase sums in double precision (C90) *)
From Coq Require Import Reals Qreals.
From Verif Require Import PyBase Refine_Model Sum_Model Sum_Spec Arg_Spec Float_Spec.
Open Scope R_scope.

(** The unit roundoff of binary64. *)
Definition unit_roundoff : R := / 2 ^ 53.

(** No line on this horizontal (vertical) level is cached. *)
Definition fresh_level {A} (st : sum_state A) (horiz : bool) (level : Q) : Prop :=
  dget okey_eqb (level, 0%Z) (if horiz then horizontal st else vertical st) = None.

(** Between two points of the rectangle on an axis-parallel line the true phase is at most [eta]: then the computed one
    is a double and off by at most [eps]. *)
Definition phases_within (eps eta : R) (f : cplx -> cR) (r : rect) (phase : cplx -> cplx -> Q) : Prop :=
  forall z z', in_rect r z -> in_rect r z' -> parallel z z' -> Rabs (phase_step f z z') <= eta ->
  is_double (phase z z') /\ Rabs (Q2R (phase z z') - phase_step f z z') <= eps.

(** The computed test for zero does not err on nonzero values. *)
Definition zeros_only (f : cplx -> cR) (r : rect) (f_zero : cplx -> bool) : Prop :=
  forall z, in_rect r z -> nonzero (f z) -> f_zero z = false.

(** Total of the true values, and of the magnitudes. *)
Fixpoint total (l : list Q) : R := match l with [] => 0 | x :: l' => Q2R x + total l' end.
Fixpoint magnitudes (l : list Q) : R := match l with [] => 0 | x :: l' => Rabs (Q2R x) + magnitudes l' end.

(** How far the computed total may be from the true one: [n] phases, each off by at most
    [eps] and at most [eta] in size, added up in double precision. *)
Definition sum_tolerance (n : nat) (eps eta : R) : R :=
  INR n * eps + ((1 + unit_roundoff) ^ n - 1) * (INR n * (eta + eps)).
