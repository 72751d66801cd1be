(** * Specification vocabulary for whole searches with Newton's method on a grid *)
From Coq Require Import Reals Qreals Qminmax.
From Verif Require Import PyBase Container_Model Zeros_Spec.
Open Scope R_scope.

(** [pts] is the evenly spaced m x m grid on a rectangle, corners included, column by column. *)
Definition start_grid (m : nat) (re' im' : Q * Q) (pts : list cplx) : Prop :=
  List.length pts = (m * m)%nat /\
  forall i j, (i < m)%nat -> (j < m)%nat ->
    exists p, nth_error pts (i * m + j) = Some p /\
      ceq p (fst re' + inject_Z (Z.of_nat i) * ((snd re' - fst re') / inject_Z (Z.of_nat (m - 1))),
             fst im' + inject_Z (Z.of_nat j) * ((snd im' - fst im') / inject_Z (Z.of_nat (m - 1))))%Q.

(** Part [i] of [n] equal parts of a range. *)
Definition part (n : nat) (r : Q * Q) (i : nat) : Q * Q :=
  (fst r + inject_Z (Z.of_nat i) * ((snd r - fst r) / inject_Z (Z.of_nat n)),
   fst r + inject_Z (Z.of_nat (i + 1)) * ((snd r - fst r) / inject_Z (Z.of_nat n)))%Q.

(** The value [c] is off the point [z] by at most [dx] and [dy]. *)
Definition off (dx dy : R) (c : cplx) (z : point) : Prop :=
  Rabs (fst z - Q2R (re c)) <= dx /\ Rabs (snd z - Q2R (im c)) <= dy.

(** Newton's method, started at several points at once, ends at most [ex], [ey] off [z] from
    every one of them that is at most [hx], [hy] off [z]. *)
Definition attracts (newton : holoFunc -> option holoFunc -> list cplx -> res (list cplx))
    (f : holoFunc) (df : option holoFunc) (hx hy ex ey : R) (z : point) : Prop :=
  forall starts k s, nth_error starts k = Some s -> off hx hy s z ->
    exists ends e, newton f df starts = Ok ends /\ nth_error ends k = Some e /\ off ex ey e z.

(** Lengths of the sides of the searched domain: the request enlarged by 1 + 2 and 3 + 4 units
    of the last of [P] decimals. *)
Definition domain_width (reRan : Q * Q) (P : Z * Z) : R :=
  Q2R (Qmax (fst reRan) (snd reRan)) - Q2R (Qmin (fst reRan) (snd reRan)) + 3 * Q2R (pow10 (- fst P)).
Definition domain_height (imRan : Q * Q) (P : Z * Z) : R :=
  Q2R (Qmax (fst imRan) (snd imRan)) - Q2R (Qmin (fst imRan) (snd imRan)) + 7 * Q2R (pow10 (- snd P)).

(** Half a unit of the last of [p] decimals. *)
Definition half_unit (p : Z) : R := Q2R (pow10 (- p)) / 2.

(** [v] is more than [e] away from every tie of rounding to [p] decimals. *)
Definition clear_of_ties (p : Z) (e v : R) : Prop :=
  forall k : Z, e < Rabs (v - (IZR k + / 2) * Q2R (pow10 (- p))).

(** Different zeros are more than [dx] apart horizontally or more than [dy] vertically. *)
Definition apart (dx dy : R) (zeros : list point) : Prop :=
  forall z1 z2, In z1 zeros -> In z2 zeros ->
    Rabs (fst z1 - fst z2) <= dx -> Rabs (snd z1 - snd z2) <= dy -> z1 = z2.
