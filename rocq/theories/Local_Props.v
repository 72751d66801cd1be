(** Property C88: what a search looks at. *)
From Coq Require Import Reals Qreals Qminmax.
From Verif Require Import PyBase Rounding_Model Poly_Model Container_Model Finder_Model Finder_Spec Refine_Model Refine_Spec
  Cache_Model Sum_Model Sum_Spec Quad_Model Whole_Model Qsearch_Model EndToEnd_Model Local_Spec Local_Proofs3 Local_Proofs4.
Open Scope Z_scope.

(** A search that returns and met no zero on a contour saw the function on the domain only:
    whatever the values elsewhere, the reports, the requests to the estimator, the progress
    and the state left behind are the same.  Any algorithm, any history of the estimator. *)
Theorem C88_domain :
  forall turns debug precision fuel secant newton polyroots has_df progress
         (f g : cplx -> cR) deltaPhi maxPrecision numPts v depth r s s' l,
  proper r -> same_on r f g ->
  calcRoots (sum_env turns f deltaPhi maxPrecision numPts precision fuel debug secant newton polyroots has_df progress) v depth r s
    = (s', l, Done tt) -> no_contour_zero l ->
  calcRoots (sum_env turns g deltaPhi maxPrecision numPts precision fuel debug secant newton polyroots has_df progress) v depth r s
    = (s', l, Done tt).
Proof. exact sum_domain. Qed.
Print Assumptions C88_domain.

(** Every search, however it ends: nothing to the left of the domain or below it matters. *)
Theorem C88_beyond :
  forall turns debug precision fuel secant newton polyroots has_df progress
         (f g : cplx -> cR) deltaPhi maxPrecision numPts v depth r s,
  proper r -> same_beyond r f g ->
  calcRoots (sum_env turns f deltaPhi maxPrecision numPts precision fuel debug secant newton polyroots has_df progress) v depth r s
  = calcRoots (sum_env turns g deltaPhi maxPrecision numPts precision fuel debug secant newton polyroots has_df progress) v depth r s.
Proof. exact sum_beyond. Qed.
Print Assumptions C88_beyond.

(** The same for the quadrature estimator, function and derivative. *)
Theorem C88_quadrature_domain :
  forall turns debug precision fuel secant newton polyroots has_df progress
         romb (f g : cplx -> R * R) df dg v depth r s s' l,
  proper r -> same_on r f g -> both (same_on r) df dg ->
  calcRoots (quad_env turns romb f df precision fuel debug secant newton polyroots has_df progress) v depth r s
    = (s', l, Done tt) -> no_contour_zero l ->
  calcRoots (quad_env turns romb g dg precision fuel debug secant newton polyroots has_df progress) v depth r s
    = (s', l, Done tt).
Proof. exact quad_domain. Qed.
Print Assumptions C88_quadrature_domain.

Theorem C88_quadrature_beyond :
  forall turns debug precision fuel secant newton polyroots has_df progress
         romb (f g : cplx -> R * R) df dg v depth r s,
  proper r -> same_beyond r f g -> both (same_beyond r) df dg ->
  calcRoots (quad_env turns romb f df precision fuel debug secant newton polyroots has_df progress) v depth r s
  = calcRoots (quad_env turns romb g dg precision fuel debug secant newton polyroots has_df progress) v depth r s.
Proof. exact quad_beyond. Qed.
Print Assumptions C88_quadrature_beyond.

(** Seen from the root finder: only the requested rectangle with its margins of at most four
    units of one decimal more than requested. *)
Theorem C88_finder :
  forall turns deltaPhi maxPrecision n precision fuel debug secant newton polyroots has_df progress v depth info s
         (f g : cplx -> cR) fH dfH dflt reRan imRan prec c,
  let algorithm h := argument_algorithm
    (sum_env turns h deltaPhi maxPrecision n precision fuel debug secant newton polyroots has_df progress) v depth info s in
  let run := algorithm f (serial_context fH dfH dflt reRan imRan prec) in
  (forall z, near_request reRan imRan (one_more (decimals dflt prec)) z -> f z = g z) ->
  ar_end run = None -> (forall i z, ~ In (i, (z, 0)) (ar_reports run)) ->
  calculateRoots fH dfH dflt (algorithm g) reRan imRan prec c = calculateRoots fH dfH dflt (algorithm f) reRan imRan prec c.
Proof.
  intros turns deltaPhi maxPrecision n precision fuel debug secant newton polyroots has_df progress v depth info s f g fH dfH dflt reRan imRan prec c algorithm run H1 H2 H3. subst run algorithm. cbv beta in *.
  exact (finder_domain turns deltaPhi maxPrecision n precision fuel debug secant newton polyroots has_df progress v depth info s f g fH dfH dflt reRan imRan prec c H1 H2 H3).
Qed.
Print Assumptions C88_finder.

Theorem C88_finder_beyond :
  forall turns deltaPhi maxPrecision n precision fuel debug secant newton polyroots has_df progress v depth info s
         (f g : cplx -> cR) fH dfH dflt reRan imRan prec c,
  let algorithm h := argument_algorithm
    (sum_env turns h deltaPhi maxPrecision n precision fuel debug secant newton polyroots has_df progress) v depth info s in
  let P := one_more (decimals dflt prec) in
  (forall z, (Qmin (fst reRan) (snd reRan) - pow10 (- fst P) <= re z)%Q ->
             (Qmin (fst imRan) (snd imRan) - 3 * pow10 (- snd P) <= im z)%Q -> f z = g z) ->
  calculateRoots fH dfH dflt (algorithm g) reRan imRan prec c = calculateRoots fH dfH dflt (algorithm f) reRan imRan prec c.
Proof.
  intros turns deltaPhi maxPrecision n precision fuel debug secant newton polyroots has_df progress v depth info s f g fH dfH dflt reRan imRan prec c algorithm P H. subst algorithm. cbv beta in *.
  exact (finder_beyond turns deltaPhi maxPrecision n precision fuel debug secant newton polyroots has_df progress v depth info s f g fH dfH dflt reRan imRan prec c H).
Qed.
Print Assumptions C88_finder_beyond.

(** Without the condition on the contours the first statement fails: a zero on the upper edge
    moves that contour upwards, and a point outside the domain decides about the reports. *)
Theorem C88_border_refuted :
  forall turns deltaPhi maxPrecision fuel secant newton polyroots has_df progress debug depth,
  (0 < deltaPhi)%R -> turns 0%R = 0%Q -> (5 <= fuel)%nat ->
  exists (f g : cplx -> cR) r, proper r /\ same_on r f g /\
  exists s1 l1 s2 l2,
    calcRoots (sum_env turns f deltaPhi maxPrecision 2 (0, 0) fuel debug secant newton polyroots has_df progress)
      Simple (S depth) r new_estimator = (s1, l1, Done tt) /\
    calcRoots (sum_env turns g deltaPhi maxPrecision 2 (0, 0) fuel debug secant newton polyroots has_df progress)
      Simple (S depth) r new_estimator = (s2, l2, Done tt) /\
    (forall z k, In (z, k) (roots_of l1) -> inside r z) /\
    (exists z, In (z, 0) (roots_of l2) /\ ~ inside r z).
Proof. exact outside_matters. Qed.
Print Assumptions C88_border_refuted.

(** The constant 1 searched on the unit square; any function with value 1 there, whatever it
    does elsewhere, gives the same run. *)
Example C88_nonvacuous turns deltaPhi maxPrecision secant newton polyroots :
  (0 < deltaPhi)%R -> turns 0%R = 0%Q ->
  let search f := calcRoots (sum_env turns f deltaPhi maxPrecision 2 (0, 0) 1 false secant newton polyroots true true)
    Simple 1 (mkRect 0 1 0 1) new_estimator in
  exists s' l, search (fun _ => (1, 0)%R) = (s', l, Done tt) /\ no_contour_zero l /\
  forall g, (forall z, inside (mkRect 0 1 0 1) z -> g z = (1, 0)%R) -> search g = (s', l, Done tt).
Proof.
  intros Hd Ht search.
  destruct (one_zero_above turns deltaPhi maxPrecision 0 secant newton polyroots true true false 0 Hd Ht) as (s' & l & C & Z).
  exists s', l. split; [exact C|]. split; [exact Z|].
  intros g Hg. refine (sum_domain turns _ _ _ _ _ _ _ _ (fun _ => (1, 0)%R) g _ _ _ _ _ _ _ _ _ _ _ C Z).
  - split; discriminate.
  - intros z Hz. symmetry. apply Hg, Hz.
Qed.
