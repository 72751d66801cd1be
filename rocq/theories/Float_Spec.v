(** * Specification vocabulary for floating point *)
From Coq Require Import Reals Qreals.
From Verif Require Import PyBase Refine_Model Refine_Spec Zeros_Spec.
Open Scope Q_scope.

(** The rationals a rounding function leaves alone. *)
Definition representable (rnd : Q -> Q) (x : Q) : Prop := rnd x == x.

(** What is used of a rounding function: it is monotone, yields representable numbers, and
    the representable numbers contain 0, 3/4 and 1 and are closed under doubling. *)
Record rounding (rnd : Q -> Q) : Prop := mkRounding {
  rnd_mono : forall x y, x <= y -> rnd x <= rnd y;
  rnd_idem : forall x, representable rnd (rnd x);
  rnd_double : forall x, representable rnd x -> representable rnd (2 * x);
  rnd_zero : representable rnd 0;
  rnd_three_quarters : representable rnd (3 # 4);
  rnd_one : representable rnd 1
}.

(** [rnd] is off by at most [u] on [-2B, 2B]. *)
Definition accurate (rnd : Q -> Q) (B u : Q) : Prop :=
  forall x, Qabs x <= 2 * B -> Qabs (rnd x - x) <= u.

(** All corners are representable. *)
Definition float_rect (rnd : Q -> Q) (r : rect) : Prop :=
  representable rnd (x1 r) /\ representable rnd (x2 r) /\
  representable rnd (y1 r) /\ representable rnd (y2 r).

(** Both sides are below the given tolerances. *)
Definition sides_below (tolRe tolIm : Q) (r : rect) : Prop :=
  x2 r - x1 r < tolRe /\ y2 r - y1 r < tolIm.

(** Closer than the tolerances. *)
Definition fnear (tolRe tolIm : Q) (c : cplx) (z : point) : Prop :=
  (Rabs (fst z - Q2R (re c)) < Q2R tolRe /\ Rabs (snd z - Q2R (im c)) < Q2R tolIm)%R.

(** The finite binary64 numbers (without the upper exponent bound): m * 2^e with |m| < 2^53
    and e >= -1074. *)
Definition is_double (x : Q) : Prop :=
  exists m e : Z, (Z.abs m < 2 ^ 53)%Z /\ (-1074 <= e)%Z /\ x == inject_Z m * 2 ^ e.

(** The coordinate [w] has size at least 2^k, is not a multiple of 2^(k-52), and the
    tolerance [tol] is at most 2^(k-52): the floating point grid around [w] is at least as
    coarse as the tolerance. *)
Definition too_fine (k : Z) (tol : Q) (w : R) : Prop :=
  tol <= 2 ^ (k - 52) /\ (Q2R (2 ^ k) <= Rabs w)%R /\
  forall m : Z, (w <> IZR m * Q2R (2 ^ (k - 52)))%R.
