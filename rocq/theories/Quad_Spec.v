(** * Specification of the quadrature estimator (C44) *)
From Coq Require Import Reals Qreals.
From Verif Require Import PyBase Sum_Model Sum_Spec Quad_Model.
Open Scope Z_scope.

(** Complex arithmetic ([quotient] is in Sum_Spec) and the distance of two points. *)
Definition times (z w : cR) : cR := (fst z * fst w - snd z * snd w, fst z * snd w + snd z * fst w)%R.
Definition power (z : cR) (k : nat) : cR := Nat.iter k (times z) (1, 0)%R.
Definition real_point (z : cplx) : cR := (Q2R (re z), Q2R (im z)).
Definition distance (a b : cplx) : R := sqrt (Rsqr (Q2R (re b - re a)) + Rsqr (Q2R (im b - im a))).

(** f'(z) z^order / f(z) *)
Definition moment_integrand (f df : cplx -> cR) (order : nat) (z : cplx) : cR :=
  quotient (times (df z) (power (real_point z) order)) (f z).

(** The integral of a function over the line, by the rule [romb] on 2^k + 1 uniform points. *)
Definition rule (romb : list R -> R -> R) (g : cplx -> R * R) (a b : cplx) (k : nat) : R * R :=
  let dx := (distance a b / INR (2 ^ k))%R in
  (romb (map (fun z => fst (g z)) (uniform a b (2 ^ k))) dx, romb (map (fun z => snd (g z)) (uniform a b (2 ^ k))) dx).

(** Two values agree up to 1e-3 in both parts. *)
Definition close_to (v w : R * R) : Prop :=
  (Rabs (fst v - fst w) < 1 / 1000)%R /\ (Rabs (snd v - snd w) < 1 / 1000)%R.

(** (b - a) / |b - a| * I / i *)
Definition line_value (a b : cplx) (I : R * R) : R * R :=
  let u := (Q2R (re b - re a) / distance a b, Q2R (im b - im a) / distance a b)%R in
  times u (snd I, - fst I)%R.
Definition scale (c : R) (z : R * R) : R * R := (c * fst z, c * snd z)%R.
Definition neg_cR (z : R * R) : R * R := (- fst z, - snd z)%R.

(** f does not distinguish equal rational numbers. *)
Definition proper (f : cplx -> R * R) : Prop := forall z z', ceq z z' -> f z = f z'.

(** When [stop] is the round that ends the loop and [used] the sampling whose result is used. *)
Definition stops_at (I : nat -> R * R) (stop used : nat) : Prop :=
  (11 <= stop <= 22)%nat /\
  (forall k, (11 <= k)%nat -> (k < stop)%nat -> ~ close_to (I k) (I (k - 1)%nat)) /\
  ((close_to (I stop) (I (stop - 1)%nat) /\ used = (stop - 1)%nat) \/
   (stop = 22%nat /\ used = 22%nat /\ ~ close_to (I stop) (I (stop - 1)%nat))).

Definition length_factor (stop : nat) : R := if Nat.leb stop 12 then 1%R else (1 - 1 / INR (2 ^ (stop - 1)))%R.

(** scipy.integrate.romb for 2^k + 1 values: Richardson extrapolation of trapezoidal sums. *)
Section Romberg.
  Variables (y : list R) (dx : R) (k : nat).
  Definition trapezoid (i : nat) : R :=
    let st := (2 ^ (k - i))%nat in
    (dx * INR st * ((nth 0 y 0 + nth (2 ^ k) y 0) / 2
       + Rsum (map (fun m => nth (m * st) y 0%R) (seq 1 (2 ^ i - 1)))))%R.
  Fixpoint extrapolate (i j : nat) : R :=
    match j with
    | O => trapezoid i
    | S j' => (extrapolate i j' + (extrapolate i j' - extrapolate (pred i) j') / (4 ^ j - 1))%R
    end.
End Romberg.
Definition romberg (y : list R) (dx : R) : R :=
  let k := Nat.log2 (List.length y - 1) in extrapolate y dx k k k.
