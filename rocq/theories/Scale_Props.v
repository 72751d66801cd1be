(** Property C89: rescaling the function changes nothing. *)
From Coq Require Import Reals Qreals.
From Verif Require Import PyBase Rounding_Model Poly_Model Container_Model Finder_Model Refine_Model Refine_Spec
  Cache_Model Sum_Model Sum_Spec Quad_Model Whole_Model Qsearch_Model EndToEnd_Model Local_Spec Local_Proofs4 Scale_Spec Scale_Proofs.
From Coq Require Import Lra.
Open Scope Z_scope.

(** Summation estimator: only the direction of the values matters, and only up to a common
    rotation. *)
Theorem C89_summation :
  forall turns debug precision fuel secant newton polyroots has_df progress
         (f g : cplx -> cR) deltaPhi maxPrecision numPts v depth r s s' l,
  proper r -> rescaled_on r f g ->
  calcRoots (sum_env turns f deltaPhi maxPrecision numPts precision fuel debug secant newton polyroots has_df progress) v depth r s
    = (s', l, Done tt) -> no_contour_zero l ->
  calcRoots (sum_env turns g deltaPhi maxPrecision numPts precision fuel debug secant newton polyroots has_df progress) v depth r s
    = (s', l, Done tt).
Proof. exact sum_scaled. Qed.
Print Assumptions C89_summation.

(** Rescaled in the whole plane: every search, however it ends. *)
Theorem C89_summation_everywhere :
  forall turns debug precision fuel secant newton polyroots has_df progress
         (f g : cplx -> cR) c k deltaPhi maxPrecision numPts v depth r s,
  proper r -> c <> (0, 0)%R -> (forall z, (0 < k z)%R) -> (forall z, g z = times c (stretched (k z) (f z))) ->
  calcRoots (sum_env turns g deltaPhi maxPrecision numPts precision fuel debug secant newton polyroots has_df progress) v depth r s
  = calcRoots (sum_env turns f deltaPhi maxPrecision numPts precision fuel debug secant newton polyroots has_df progress) v depth r s.
Proof. exact sum_scaled_everywhere. Qed.
Print Assumptions C89_summation_everywhere.

(** Quadrature estimator: a common constant factor of function and derivative. *)
Theorem C89_quadrature :
  forall turns debug precision fuel secant newton polyroots has_df progress
         romb (f g : cplx -> R * R) df dg v depth r s s' l,
  proper r -> multiplied_on r f g df dg ->
  calcRoots (quad_env turns romb f df precision fuel debug secant newton polyroots has_df progress) v depth r s
    = (s', l, Done tt) -> no_contour_zero l ->
  calcRoots (quad_env turns romb g dg precision fuel debug secant newton polyroots has_df progress) v depth r s
    = (s', l, Done tt).
Proof. exact quad_scaled. Qed.
Print Assumptions C89_quadrature.

Theorem C89_quadrature_everywhere :
  forall turns debug precision fuel secant newton polyroots has_df progress
         romb (f g df dg : cplx -> R * R) c v depth r s,
  proper r -> c <> (0, 0)%R -> (forall z, g z = times c (f z)) -> (forall z, dg z = times c (df z)) ->
  calcRoots (quad_env turns romb g (Some dg) precision fuel debug secant newton polyroots has_df progress) v depth r s
  = calcRoots (quad_env turns romb f (Some df) precision fuel debug secant newton polyroots has_df progress) v depth r s.
Proof. exact quad_scaled_everywhere. Qed.
Print Assumptions C89_quadrature_everywhere.

(** The root finder's container and outcome. *)
Theorem C89_finder :
  forall turns debug precision fuel secant newton polyroots has_df progress
         deltaPhi maxPrecision n v depth info s (f g : cplx -> cR) c k fH dfH dflt reRan imRan prec cont,
  c <> (0, 0)%R -> (forall z, (0 < k z)%R) -> (forall z, g z = times c (stretched (k z) (f z))) ->
  calculateRoots fH dfH dflt (argument_algorithm
    (sum_env turns g deltaPhi maxPrecision n precision fuel debug secant newton polyroots has_df progress) v depth info s) reRan imRan prec cont =
  calculateRoots fH dfH dflt (argument_algorithm
    (sum_env turns f deltaPhi maxPrecision n precision fuel debug secant newton polyroots has_df progress) v depth info s) reRan imRan prec cont.
Proof. exact finder_scaled. Qed.
Print Assumptions C89_finder.

(** The constant 1 and the function 2i * (1 + x^2). *)
Example C89_nonvacuous turns deltaPhi maxPrecision secant newton polyroots :
  (0 < deltaPhi)%R -> turns 0%R = 0%Q ->
  let r := mkRect 0 1 0 1 in
  let f (z : cplx) := (1, 0)%R in
  let g (z : cplx) := (0, 2 * (1 + Q2R (re z) * Q2R (re z)))%R in
  rescaled_on r f g /\
  exists s' l, forall h, h = f \/ h = g ->
    calcRoots (sum_env turns h deltaPhi maxPrecision 2 (0, 0) 1 false secant newton polyroots true true)
      Simple 1 r new_estimator = (s', l, Done tt) /\ no_contour_zero l.
Proof.
  intros Hd Ht r f g.
  assert (S : rescaled_on r f g).
  { exists (0, 2)%R, (fun z => 1 + Q2R (re z) * Q2R (re z))%R. split; [intro C; injection C; lra|].
    intros z _. split.
    - pose proof (Rle_0_sqr (Q2R (re z))) as P. unfold Rsqr in P. lra.
    - unfold g, f, times, stretched. cbn [fst snd]. f_equal; ring. }
  split; [exact S|].
  destruct (one_zero_above turns deltaPhi maxPrecision 0 secant newton polyroots true true false 0 Hd Ht) as (s' & l & C & Z).
  exists s', l. intros h [->| ->]; (split; [|exact Z]).
  - exact C.
  - refine (sum_scaled turns _ _ _ _ _ _ _ _ f g _ _ _ _ _ _ _ _ _ _ S C Z). split; discriminate.
Qed.
