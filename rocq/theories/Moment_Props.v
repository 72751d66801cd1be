(** * Property C73: moments computed by the quadrature estimator

    The estimator is run with Romberg's rule, which is the one it calls (scipy.integrate.romb).
    [F] is the function searched, [DF] its derivative, a zero of order m is listed m times. *)
From Coq Require Import Reals Qreals.
From Verif Require Import PyBase Refine_Model Zeros_Spec Sum_Model Sum_Spec Quad_Model Quad_Spec
  Arg_Spec Moment_Spec Arg_Examples Moment_Proofs8.
Open Scope R_scope.

(** If the rule is off by at most e < 1/2000 per side, the loop converges on every side and
    the moment of order k of the rectangle is 2 pi times the sum of the k-th powers of the
    zeros in it, up to 4 e in each part. *)
Theorem C73_moments :
  forall F DF zeros k e r prec fuel,
  (x1 r < x2 r)%Q -> (y1 r < y2 r)%Q -> integrable F DF zeros k e r -> e < 1 / 2000 -> (2 <= fuel)%nat ->
  exists v1 v2 v3 v4,
    quad_line romberg (called F) (Some (called DF)) prec fuel k (x1 r, y1 r) (x2 r, y1 r) = QuadOk [] v1 /\
    quad_line romberg (called F) (Some (called DF)) prec fuel k (x2 r, y1 r) (x2 r, y2 r) = QuadOk [] v2 /\
    quad_line romberg (called F) (Some (called DF)) prec fuel k (x2 r, y2 r) (x1 r, y2 r) = QuadOk [] v3 /\
    quad_line romberg (called F) (Some (called DF)) prec fuel k (x1 r, y2 r) (x1 r, y1 r) = QuadOk [] v4 /\
    Rabs (fst v1 + fst v2 + fst v3 + fst v4 - 2 * PI * fst (power_sum zeros k r)) <= 4 * e /\
    Rabs (snd v1 + snd v2 + snd v3 + snd v4 - 2 * PI * snd (power_sum zeros k r)) <= 4 * e.
Proof. exact C73_moments_lemma. Qed.
Print Assumptions C73_moments.

(** For a polynomial with all zeros at least [d] away from the border the bound is explicit
    ([D]: length of the longer side, [B]: bound for the coordinates). *)
Theorem C73_polynomial :
  forall lead zeros k r d B D prec fuel,
  lead <> (0, 0) -> (x1 r < x2 r)%Q -> (y1 r < y2 r)%Q -> 0 < d -> 1 <= B ->
  (forall w, In w zeros -> border_distance d r w) ->
  (forall w, In w zeros -> Rabs (fst w) + Rabs (snd w) <= B) ->
  (forall p, on_border r p -> Rabs (fst p) + Rabs (snd p) <= B) ->
  Q2R (x2 r) - Q2R (x1 r) <= D -> Q2R (y2 r) - Q2R (y1 r) <= D ->
  let F := called (fun p => times lead (product_of zeros p)) in
  let DF := called (fun p => times lead (derivative_of zeros p)) in
  let e := INR (List.length zeros) * B ^ k * (3 / d ^ 3 + INR k ^ 3) * D ^ 3 / (3 * 4 ^ 10) in
  e < 1 / 2000 -> (2 <= fuel)%nat ->
  exists v1 v2 v3 v4,
    quad_line romberg F (Some DF) prec fuel k (x1 r, y1 r) (x2 r, y1 r) = QuadOk [] v1 /\
    quad_line romberg F (Some DF) prec fuel k (x2 r, y1 r) (x2 r, y2 r) = QuadOk [] v2 /\
    quad_line romberg F (Some DF) prec fuel k (x2 r, y2 r) (x1 r, y2 r) = QuadOk [] v3 /\
    quad_line romberg F (Some DF) prec fuel k (x1 r, y2 r) (x1 r, y1 r) = QuadOk [] v4 /\
    Rabs (fst v1 + fst v2 + fst v3 + fst v4 - 2 * PI * fst (power_sum zeros k r)) <= 4 * e /\
    Rabs (snd v1 + snd v2 + snd v3 + snd v4 - 2 * PI * snd (power_sum zeros k r)) <= 4 * e.
Proof. exact C73_polynomial_lemma. Qed.
Print Assumptions C73_polynomial.

(** The derivative used there is the derivative. *)
Theorem C73_derivative : forall zeros r, primitive_on r (product_of zeros) (derivative_of zeros).
Proof. exact C73_derivative_lemma. Qed.
Print Assumptions C73_derivative.

(** Order 0: the number of zeros. *)
Theorem C73_count : forall zeros r, power_sum zeros 0 r = (INR (count zeros r), 0).
Proof. exact C73_count_lemma. Qed.
Print Assumptions C73_count.

(** The hypotheses are met, for order 1, by 2 z^2 (z - 3 - 3i) on the square [-1, 1]^2. *)
Example C73_nonvacuous :
  (x1 square < x2 square)%Q /\ (y1 square < y2 square)%Q /\
  integrable (fun p => times (2, 0) (product_of three_zeros p)) (fun p => times (2, 0) (derivative_of three_zeros p))
    three_zeros 1 (1 / 4000) square /\ 1 / 4000 < 1 / 2000.
Proof. exact (conj eq_refl (conj eq_refl (conj square_integrable quarter_small))). Qed.
