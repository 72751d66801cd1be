(** * Zeros of the target function, as a finite list of points of the plane
    (a zero of order k occurs k times).  Uses Coq's axiomatic real numbers. *)
From Coq Require Import Reals Qreals.
From Verif Require Import PyBase Refine_Model Refine_Spec.
Open Scope R_scope.

Definition point : Type := (R * R)%type.

Definition zin (r : rect) (z : point) : Prop :=
  Q2R (x1 r) <= fst z <= Q2R (x2 r) /\ Q2R (y1 r) <= snd z <= Q2R (y2 r).
Definition zstrict (r : rect) (z : point) : Prop :=
  Q2R (x1 r) < fst z < Q2R (x2 r) /\ Q2R (y1 r) < snd z < Q2R (y2 r).

Definition between_dec (a x b : R) : {a <= x <= b} + {~ (a <= x <= b)}.
Proof.
  destruct (Rle_dec a x) as [H|H]; [destruct (Rle_dec x b) as [H'|H']|];
    [left; split; assumption|right; intros [_ C]; contradiction|right; intros [C _]; contradiction].
Defined.
Definition zinb (r : rect) (z : point) : bool :=
  (if between_dec (Q2R (x1 r)) (fst z) (Q2R (x2 r)) then true else false) &&
  (if between_dec (Q2R (y1 r)) (snd z) (Q2R (y2 r)) then true else false).

(** Number of zeros, with multiplicity, in a rectangle. *)
Definition count (zeros : list point) (r : rect) : nat := List.length (filter (zinb r) zeros).

(** No zero lies on the border of the rectangle. *)
Definition avoids (zeros : list point) (r : rect) : Prop :=
  forall z, In z zeros -> zin r z -> zstrict r z.

(** Within half the tolerance in each coordinate. *)
Definition near (p : Z * Z) (c : cplx) (z : point) : Prop :=
  Rabs (fst z - Q2R (re c)) < Q2R (pow10 (- fst p)) / 2 /\
  Rabs (snd z - Q2R (im c)) < Q2R (pow10 (- snd p)) / 2.

(** An estimate [t] (in turns) that is good enough for [n] zeros. *)
Definition good_estimate (t : Q) (n : nat) : Prop :=
  (n = 0%nat -> (t < 4 # 5)%Q) /\
  ((1 <= n)%nat -> (4 # 5 <= t)%Q /\ (Qabs (t - inject_Z (Z.of_nat n)) < 1 # 2)%Q).

(** Every winding number estimate made in the run [l] is good, and no rectangle border
    runs through a zero. *)
Definition good_run (zeros : list point) (l : list event) : Prop :=
  forall q m, In (EvMoment 0 q m) l ->
    avoids zeros q /\ exists m', m = Ok m' /\ good_estimate (re m') (count zeros q).

(** The reported roots except zeros met on contour samples (order 0). *)
Definition located (l : list event) : list root :=
  filter (fun r => negb (Z.eqb (snd r) 0)) (roots_of l).
