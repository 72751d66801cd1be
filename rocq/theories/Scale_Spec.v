(** * Specification vocabulary for rescaled functions (C89) *)
From Coq Require Import Reals.
From Verif Require Import PyBase Refine_Model Refine_Spec.

(** The product of two complex numbers, and a real multiple. *)
Definition times (a b : R * R) : R * R := (fst a * fst b - snd a * snd b, fst a * snd b + snd a * fst b)%R.
Definition stretched (k : R) (b : R * R) : R * R := (k * fst b, k * snd b)%R.

(** On the rectangle the second function is the first one times a constant other than 0 and
    times a positive factor that may change from point to point. *)
Definition rescaled_on (r : rect) (f g : cplx -> R * R) : Prop :=
  exists (c : R * R) (k : cplx -> R), c <> (0, 0)%R /\
  forall z, inside r z -> (0 < k z)%R /\ g z = times c (stretched (k z) (f z)).

(** The same constant for a function and its derivative. *)
Definition multiplied_on (r : rect) (f g : cplx -> R * R) (df dg : option (cplx -> R * R)) : Prop :=
  exists c : R * R, c <> (0, 0)%R /\
  (forall z, inside r z -> g z = times c (f z)) /\
  match df, dg with
  | Some d, Some e => forall z, inside r z -> e z = times c (d z)
  | None, None => True
  | _, _ => False
  end.
