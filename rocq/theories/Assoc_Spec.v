(** * Specification vocabulary for searches of the associated-polynomial algorithm (C76) *)
From Coq Require Import Permutation Reals Qreals.
From Verif Require Import PyBase Rounding_Model Container_Model Finder_Model Refine_Model Refine_Spec Zeros_Spec
  Sum_Spec Quad_Spec Moment_Spec EndToEnd_Spec.
Open Scope R_scope.

(** Euclidean distance. *)
Definition apart (a b : cR) : R := dist_euc (fst a) (snd a) (fst b) (snd b).

(** The coefficients of the product of all (x - z), constant term first. *)
Fixpoint add_coefficients (p q : list cR) : list cR :=
  match p, q with
  | [], _ => q
  | _, [] => p
  | a :: p', b :: q' => plus_cR a b :: add_coefficients p' q'
  end.
Fixpoint coefficients_of (zs : list point) : list cR :=
  match zs with
  | [] => [(1, 0)]
  | z :: zs' => let p := coefficients_of zs' in
      add_coefficients (map (times (minus_cR (0, 0) z)) p) ((0, 0) :: p)
  end.

(** The rational coefficients [p] are off by at most [e]. *)
Definition close (e : R) (p : list cplx) (c : list cR) : Prop :=
  Forall2 (fun a b => apart (real_point a) b <= e) p c.

(** Whatever was cached before, the moments of order 1 .. n of a cell with n = 1, 2 or 3
    zeros are the power sums of the zeros in it up to [d], and points reported as met zeros
    are zeros on the border. *)
Definition moments_within {S} (d : R) (E : env S) (zeros : list point) (P : Z * Z) (r : rect) : Prop :=
  forall q k s, cell_of P r q -> (count zeros q <= 3)%nat -> (1 <= k <= count zeros q)%nat ->
    exists s' zs m, e_est E (Z.of_nat k) q s = (s', zs, Ok m) /\
      apart (real_point m) (power_sum zeros k q) <= d /\
      forall c, In c zs ->
        let z := (Q2R (re c), Q2R (im c)) in In z zeros /\ zin q z /\ ~ zstrict q z.

(** The error of the coefficients computed from n moments off by [d], for zeros of modulus
    at most [B] >= 1. *)
Definition coefficient_error (B d : R) (n : nat) : R :=
  match n with 1%nat => d | 2%nat => 4 * B * d | _ => 9 * B ^ 2 * d end.

(** [solve] is a backward stable polynomial solver for the polynomials met: if the
    coefficients are, up to such an error, those of the product of all (x - z) over the one,
    two or three zeros in a cell, then the computed roots are as many and are the exact roots
    of a polynomial whose coefficients are within [e] of the given ones. *)
Definition stably_solves (B d e : R) (solve : list cplx -> res (list cplx)) (zeros : list point) (P : Z * Z) (r : rect) : Prop :=
  forall q p, cell_of P r q -> (1 <= count zeros q <= 3)%nat ->
    close (coefficient_error B d (count zeros q)) p (coefficients_of (filter (zinb q) zeros)) ->
    exists ws, solve p = Ok ws /\ close e p (coefficients_of (map real_point ws)).

(** The zeros [zs] are well enough conditioned for a polynomial with coefficients off by [h]
    to have its roots within [rho] of them.  A single zero needs h <= rho.  Otherwise all
    moduli are at most [B], and there is a coarse radius [g] such that different zeros are
    more than 6 [g] apart and errors B^2 h are of order g^n; and [g] is at most [rho], or all
    zeros are simple and the errors are of order rho g^(n-1). *)
Definition conditioned (B h rho : R) (zs : list point) : Prop :=
  (exists z, zs = [z] /\ h <= rho) \/
  ((forall z, In z zs -> apart z (0, 0) <= B) /\
   exists g, 0 < g <= 1 /\ 12 * B ^ 2 * h <= g ^ List.length zs /\
     (forall z z', In z zs -> In z' zs -> z <> z' -> 6 * g < apart z z') /\
     (g <= rho \/ (NoDup zs /\ 12 * B ^ 2 * h <= rho * (5 * g) ^ (List.length zs - 1)))).

(** What a search by associated polynomials on [r] relies on besides its estimator, when
    the moments are off by at most [d]: polynomial roots with backward error [e], and zeros
    in the cells that are conditioned well enough to be resolved to [rho], which is below
    half of 10^-P. *)
Record solvable (B d e rho : R) (solve : list cplx -> res (list cplx)) (zeros : list point) (P : Z * Z) (r : rect) : Prop := {
  sv_bound : 1 <= B /\ 0 <= e;
  sv_rho : rho < Q2R (pow10 (- fst P)) / 2 /\ rho < Q2R (pow10 (- snd P)) / 2;
  sv_solver : stably_solves B d e solve zeros P r;
  sv_zeros : forall q, cell_of P r q -> (1 <= count zeros q <= 3)%nat ->
    conditioned B (coefficient_error B d (count zeros q) + e) rho (filter (zinb q) zeros) }.

Definition resolvable {S} (B d e rho : R) (E : env S) (zeros : list point) (P : Z * Z) (r : rect) : Prop :=
  moments_within d E zeros P r /\ solvable B d e rho (e_polyroots E) zeros P r.

(** At tolerance 10^-P, Romberg's rule on 2^10 + 1 points integrates F'/F with an error of
    at most e < 1/2000 over every side of every cell of [r], and z^k F'(z) / F(z), 1 <= k <=
    n, over the sides of every cell with n = 1, 2 or 3 zeros; no zero lies on a side. *)
Definition quad_moments_resolved (e : R) (F DF : cR -> cR) (zeros : list point) (P : Z * Z) (r : rect) : Prop :=
  e < 1 / 2000 /\ forall q k, cell_of P r q -> (k = 0 \/ k <= count zeros q <= 3)%nat -> integrable F DF zeros k e q.
