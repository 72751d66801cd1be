(** * Specification vocabulary for whole searches *)
From Coq Require Import Reals Qreals Qminmax.
From Verif Require Import PyBase Rounding_Model Container_Model Finder_Model Refine_Model Refine_Spec
  Zeros_Spec EndToEnd_Model.
Open Scope R_scope.

(** [z] lies in the rectangle the user asked for; the two ends of a range may come in
    either order. *)
Definition requested (reRan imRan : Q * Q) (z : point) : Prop :=
  Q2R (Qmin (fst reRan) (snd reRan)) <= fst z <= Q2R (Qmax (fst reRan) (snd reRan)) /\
  Q2R (Qmin (fst imRan) (snd imRan)) <= snd z <= Q2R (Qmax (fst imRan) (snd imRan)).

(** [z] lies in that rectangle or at most 1, 2, 3, 4 units of tolerance outside. *)
Definition almost_requested (P : Z * Z) (reRan imRan : Q * Q) (z : point) : Prop :=
  Q2R (Qmin (fst reRan) (snd reRan)) - Q2R (pow10 (- fst P)) <= fst z
    <= Q2R (Qmax (fst reRan) (snd reRan)) + 2 * Q2R (pow10 (- fst P)) /\
  Q2R (Qmin (fst imRan) (snd imRan)) - 3 * Q2R (pow10 (- snd P)) <= snd z
    <= Q2R (Qmax (fst imRan) (snd imRan)) + 4 * Q2R (pow10 (- snd P)).

(** The value [c] is off the point [z] by at most [t] units of 10^-P in each coordinate. *)
Definition within (t : R) (P : Z * Z) (c : cplx) (z : point) : Prop :=
  Rabs (fst z - Q2R (re c)) <= t * Q2R (pow10 (- fst P)) /\
  Rabs (snd z - Q2R (im c)) <= t * Q2R (pow10 (- snd P)).

(** Different zeros differ by more than [t] units of 10^-P in some coordinate. *)
Definition separated (t : R) (P : Z * Z) (zeros : list point) : Prop :=
  forall z1 z2, In z1 zeros -> In z2 zeros ->
    Rabs (fst z1 - fst z2) <= t * Q2R (pow10 (- fst P)) ->
    Rabs (snd z1 - snd z2) <= t * Q2R (pow10 (- snd P)) -> z1 = z2.

(** The real side is longer, measured in units of the tolerances: such a rectangle is cut
    by a vertical line, others by a horizontal one. *)
Definition wider (P : Z * Z) (q : rect) : Prop :=
  ((y2 q - y1 q) / pow10 (- snd P) < (x2 q - x1 q) / pow10 (- fst P))%Q.

(** Cells of a rectangle: what repeated bisection of cells that are not yet below the
    tolerance produces, halving the relatively longer side. *)
Inductive cell_of (P : Z * Z) (r : rect) : rect -> Prop :=
| cell_whole : cell_of P r r
| cell_left q : cell_of P r q -> ~ sub_tolerance P q -> wider P q ->
    cell_of P r (mkRect (x1 q) ((x1 q + x2 q) / 2) (y1 q) (y2 q))
| cell_right q : cell_of P r q -> ~ sub_tolerance P q -> wider P q ->
    cell_of P r (mkRect ((x1 q + x2 q) / 2) (x2 q) (y1 q) (y2 q))
| cell_bottom q : cell_of P r q -> ~ sub_tolerance P q -> ~ wider P q ->
    cell_of P r (mkRect (x1 q) (x2 q) (y1 q) ((y1 q + y2 q) / 2))
| cell_top q : cell_of P r q -> ~ sub_tolerance P q -> ~ wider P q ->
    cell_of P r (mkRect (x1 q) (x2 q) ((y1 q + y2 q) / 2) (y2 q)).

(** The estimator is reliable on [r] at tolerance 10^-P: whatever was cached before, on
    every cell it answers, its answer is off by at most 0.2 turn, and the points it reports
    as zeros met on the border are zeros on the border; and no zero is on the border of a
    cell. *)
Definition reliable {S} (E : env S) (zeros : list point) (P : Z * Z) (r : rect) : Prop :=
  forall q s, cell_of P r q ->
    avoids zeros q /\
    exists s' zs m, e_est E 0 q s = (s', zs, Ok m) /\
      (Qabs (re m - inject_Z (Z.of_nat (count zeros q))) <= 1 # 5)%Q /\
      forall c, In c zs ->
        let z := (Q2R (re c), Q2R (im c)) in In z zeros /\ zin q z /\ ~ zstrict q z.

(** Enough recursion depth for a range of width [w] at tolerance 10^-p. *)
Definition halvings (w : Q) (p : Z) (a : nat) : Prop :=
  (w < inject_Z (2 ^ Z.of_nat a) * pow10 (- p))%Q.

(** What the user gets: [pairs] are the reported (root, order) pairs, [P] the number of
    decimals they are rounded to, [P0] the number of decimals of the search. *)
Definition all_found (t : R) (P : Z * Z) (zeros : list point) (reRan imRan : Q * Q)
    (pairs : list root) : Prop :=
  forall z, In z zeros -> requested reRan imRan z ->
    exists c k, In (c, k) pairs /\ (1 <= k)%Z /\ within t P c z.

Definition all_genuine (t : R) (P P0 : Z * Z) (zeros : list point) (reRan imRan : Q * Q)
    (pairs : list root) : Prop :=
  forall c k, In (c, k) pairs ->
    (1 <= k)%Z /\ exists z, In z zeros /\ almost_requested P0 reRan imRan z /\ within t P c z.

Definition orders_right (t : R) (P P0 : Z * Z) (zeros : list point) (reRan imRan : Q * Q)
    (pairs : list root) : Prop :=
  forall c k, In (c, k) pairs ->
    exists z, In z zeros /\ almost_requested P0 reRan imRan z /\ within t P c z /\
      forall dec : (forall a b : point, {a = b} + {a <> b}), k = Z.of_nat (count_occ dec zeros z).

Definition exactly_once (t : R) (P : Z * Z) (zeros : list point) (reRan imRan : Q * Q)
    (pairs : list root) : Prop :=
  forall z, In z zeros -> requested reRan imRan z ->
    exists c k, In (c, k) pairs /\ within t P c z /\
      (forall dec : (forall a b : point, {a = b} + {a <> b}), k = Z.of_nat (count_occ dec zeros z)) /\
      forall c' k', In (c', k') pairs -> within t P c' z -> (c', k') = (c, k).
