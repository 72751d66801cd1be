(** * Specification vocabulary for whole searches in binary64 *)
From Coq Require Import Reals Qreals Qminmax.
From Verif Require Import PyBase Rounding_Model Container_Model Refine_Model Refine_Spec Zeros_Spec
  Float_Model Float_Spec EndToEnd_Spec.
Open Scope R_scope.

(** [t] is what the C library returns for 10^-p: a double, off by at most one part in 2^50. *)
Definition power_of_ten (p : Z) (t : Q) : Prop :=
  is_double t /\ (Qabs (t - pow10 (- p)) <= 2 ^ (-50) * pow10 (- p))%Q.

(** [t] serves as the tolerance of [p] decimals for numbers of size at most 2^k: it is at
    least 16 units in the last place of such a number. *)
Definition tolerance64 (k p : Z) (t : Q) : Prop :=
  power_of_ten p t /\ (2 ^ (k - 49) <= t /\ t <= 2 ^ (k - 4))%Q.

(** The midpoint computed in floating point ([rnd64] is specified by C65_binary64). *)
Definition mid64 (a b : Q) : Q := rnd64 (rnd64 (a + b) / 2)%Q.

(** Both computed side lengths are below the tolerances. *)
Definition seen_small (tx ty : Q) (q : rect) : Prop :=
  (rnd64 (x2 q - x1 q) < tx /\ rnd64 (y2 q - y1 q) < ty)%Q.

(** Cells of a rectangle: what repeated bisection of cells that are not yet seen to be below
    the tolerance produces. *)
Inductive cell64 (tx ty : Q) (r : rect) : rect -> Prop :=
| cell64_whole : cell64 tx ty r r
| cell64_left q : cell64 tx ty r q -> ~ seen_small tx ty q ->
    cell64 tx ty r (mkRect (x1 q) (mid64 (x1 q) (x2 q)) (y1 q) (y2 q))
| cell64_right q : cell64 tx ty r q -> ~ seen_small tx ty q ->
    cell64 tx ty r (mkRect (mid64 (x1 q) (x2 q)) (x2 q) (y1 q) (y2 q))
| cell64_bottom q : cell64 tx ty r q -> ~ seen_small tx ty q ->
    cell64 tx ty r (mkRect (x1 q) (x2 q) (y1 q) (mid64 (y1 q) (y2 q)))
| cell64_top q : cell64 tx ty r q -> ~ seen_small tx ty q ->
    cell64 tx ty r (mkRect (x1 q) (x2 q) (mid64 (y1 q) (y2 q)) (y2 q)).

(** The estimator is reliable on [r] (as in C63, over these cells). *)
Definition reliable64 {S} (E : env S) (zeros : list point) (tx ty : Q) (r : rect) : Prop :=
  forall q s, cell64 tx ty r q ->
    avoids zeros q /\
    exists s' zs m, e_est E 0 q s = (s', zs, Ok m) /\
      (Qabs (re m - inject_Z (Z.of_nat (count zeros q))) <= 1 # 5)%Q /\
      forall c, In c zs ->
        let z := (Q2R (re c), Q2R (im c)) in In z zeros /\ zin q z /\ ~ zstrict q z.

(** [z] lies in the requested rectangle or at most 5/4, 9/4, 13/4, 17/4 units of tolerance
    outside. *)
Definition about_requested (P : Z * Z) (reRan imRan : Q * Q) (z : point) : Prop :=
  Q2R (Qmin (fst reRan) (snd reRan)) - 5 / 4 * Q2R (pow10 (- fst P)) <= fst z
    <= Q2R (Qmax (fst reRan) (snd reRan)) + 9 / 4 * Q2R (pow10 (- fst P)) /\
  Q2R (Qmin (fst imRan) (snd imRan)) - 13 / 4 * Q2R (pow10 (- snd P)) <= snd z
    <= Q2R (Qmax (fst imRan) (snd imRan)) + 17 / 4 * Q2R (pow10 (- snd P)).

(** As [all_genuine] and [orders_right] of EndToEnd_Spec. *)
Definition genuine64 (t : R) (P P0 : Z * Z) (zeros : list point) (reRan imRan : Q * Q)
    (pairs : list root) : Prop :=
  forall c k, In (c, k) pairs ->
    (1 <= k)%Z /\ exists z, In z zeros /\ about_requested P0 reRan imRan z /\ within t P c z.

Definition orders64 (t : R) (P P0 : Z * Z) (zeros : list point) (reRan imRan : Q * Q)
    (pairs : list root) : Prop :=
  forall c k, In (c, k) pairs ->
    exists z, In z zeros /\ about_requested P0 reRan imRan z /\ within t P c z /\
      forall dec : (forall a b : point, {a = b} + {a <> b}), k = Z.of_nat (count_occ dec zeros z).

(** The reported values are doubles. *)
Definition all_doubles (pairs : list root) : Prop :=
  forall c k, In (c, k) pairs -> is_double (re c) /\ is_double (im c).
