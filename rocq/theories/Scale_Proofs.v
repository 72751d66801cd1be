From Coq Require Import Reals Qreals Qminmax.
From Verif Require Import PyBase Rounding_Model Poly_Model Container_Model Finder_Model Refine_Model Refine_Spec Refine_Proofs Refine_Proofs2
  Cache_Model Sum_Model Sum_Spec Quad_Model Whole_Model Qsearch_Model EndToEnd_Model Local_Spec Local_Proofs Local_Proofs2 Local_Proofs3
  Finder_Spec Finder_Proofs Local_Proofs4 Scale_Spec.
From Coq Require Import Lra.
Open Scope R_scope.

Lemma norm_pos (c : cR) : c <> (0, 0) -> 0 < fst c * fst c + snd c * snd c.
Proof.
  destruct c as [a b]. cbn. intro H. destruct (Req_dec a 0) as [->|A].
  - destruct (Req_dec b 0) as [->|B]; [congruence|].
    pose proof (Rsqr_pos_lt b B) as P. unfold Rsqr in P. lra.
  - pose proof (Rsqr_pos_lt a A) as P. pose proof (Rle_0_sqr b) as P2. unfold Rsqr in *. lra.
Qed.

Lemma arctan2_stretched t v : 0 < t -> arctan2 (stretched t v) = arctan2 v.
Proof.
  intro T. destruct v as [x y]. unfold stretched, arctan2. cbn [fst snd].
  assert (D : x <> 0 -> t * y / (t * x) = y / x) by (intro X; field; lra).
  destruct (Rlt_dec 0 x) as [X|X].
  - destruct (Rlt_dec 0 (t * x)) as [_|C].
    + rewrite D by lra. reflexivity.
    + exfalso. apply C. apply Rmult_lt_0_compat; assumption.
  - destruct (Rlt_dec 0 (t * x)) as [C|_].
    { exfalso. apply X. apply Rmult_lt_reg_l with t; lra. }
    destruct (Rlt_dec x 0) as [X2|X2].
    + destruct (Rlt_dec (t * x) 0) as [_|C].
      2:{ exfalso. apply C. rewrite <- (Rmult_0_r t). apply Rmult_lt_compat_l; assumption. }
      rewrite D by lra.
      destruct (Rle_dec 0 y) as [Y|Y], (Rle_dec 0 (t * y)) as [Y2|Y2]; try reflexivity; exfalso.
      * apply Y2. apply Rmult_le_pos; lra.
      * apply Y. apply Rmult_le_reg_l with t; lra.
    + destruct (Rlt_dec (t * x) 0) as [C|_].
      { exfalso. apply X2. apply Rmult_lt_reg_l with t; lra. }
      destruct (Rlt_dec 0 y) as [Y|Y], (Rlt_dec 0 (t * y)) as [Y2|Y2].
      * reflexivity.
      * exfalso. apply Y2. apply Rmult_lt_0_compat; assumption.
      * exfalso. apply Y. apply Rmult_lt_reg_l with t; lra.
      * destruct (Rlt_dec y 0) as [Z|Z], (Rlt_dec (t * y) 0) as [Z2|Z2]; try reflexivity; exfalso.
        -- apply Z2. rewrite <- (Rmult_0_r t). apply Rmult_lt_compat_l; assumption.
        -- apply Z. apply Rmult_lt_reg_l with t; lra.
Qed.

Lemma quotient_scaled c k k' (v w : cR) : c <> (0, 0) -> 0 < k -> 0 < k' ->
  quotient (times c (stretched k' w)) (times c (stretched k v)) = stretched (k' / k) (quotient w v).
Proof.
  intros C K K'. pose proof (norm_pos c C) as N.
  destruct (Req_dec (fst v * fst v + snd v * snd v) 0) as [V|V].
  - assert (V2 : v = (0, 0)).
    { destruct v as [a b]. cbn in V. destruct (Req_dec a 0) as [->|A].
      - destruct (Req_dec b 0) as [->|B]; [reflexivity|]. exfalso. pose proof (Rsqr_pos_lt b B) as P. unfold Rsqr in P. lra.
      - exfalso. pose proof (Rsqr_pos_lt a A) as P. pose proof (Rle_0_sqr b) as P2. unfold Rsqr in *. lra. }
    subst v. destruct c as [c1 c2], w as [w1 w2]. unfold quotient, times, stretched. cbn [fst snd].
    f_equal; unfold Rdiv; rewrite ?Rmult_0_r, ?Rminus_0_r, ?Rplus_0_r, ?Rmult_0_r, ?Rmult_0_l, ?Rminus_0_r, ?Rplus_0_r, ?Rmult_0_r, ?Rmult_0_l, ?Rmult_0_r; ring.
  - destruct c as [c1 c2], w as [w1 w2], v as [v1 v2]. unfold quotient, times, stretched. cbn [fst snd] in *.
    assert (M : (c1 * (k * v1) - c2 * (k * v2)) * (c1 * (k * v1) - c2 * (k * v2)) + (c1 * (k * v2) + c2 * (k * v1)) * (c1 * (k * v2) + c2 * (k * v1))
      = (c1 * c1 + c2 * c2) * (k * k * (v1 * v1 + v2 * v2))) by ring.
    rewrite M. f_equal; field; repeat split; try lra.
Qed.

Lemma scaled_zero c k (v : cR) : c <> (0, 0) -> 0 < k -> times c (stretched k v) = (0, 0) <-> v = (0, 0).
Proof.
  intros C K. pose proof (norm_pos c C) as N. split.
  - destruct c as [c1 c2], v as [v1 v2]. unfold times, stretched. cbn [fst snd] in *. intro H. injection H as H1 H2.
    assert (X : k * (c1 * c1 + c2 * c2) * v1 = 0).
    { replace (k * (c1 * c1 + c2 * c2) * v1) with (c1 * (c1 * (k * v1) - c2 * (k * v2)) + c2 * (c1 * (k * v2) + c2 * (k * v1))) by ring.
      rewrite H1, H2. ring. }
    assert (Y : k * (c1 * c1 + c2 * c2) * v2 = 0).
    { replace (k * (c1 * c1 + c2 * c2) * v2) with (c1 * (c1 * (k * v2) + c2 * (k * v1)) - c2 * (c1 * (k * v1) - c2 * (k * v2))) by ring.
      rewrite H1, H2. ring. }
    assert (P : 0 < k * (c1 * c1 + c2 * c2)) by (apply Rmult_lt_0_compat; assumption).
    apply Rmult_integral in X. apply Rmult_integral in Y.
    f_equal; lra.
  - intros ->. unfold times, stretched. cbn [fst snd]. f_equal; ring.
Qed.

Lemma zero_bit (v : cR) : (if Req_EM_T (fst v) 0 then (if Req_EM_T (snd v) 0 then true else false) else false) = true <-> v = (0, 0).
Proof.
  destruct v as [a b]. cbn [fst snd]. destruct (Req_EM_T a 0) as [->|A]; [destruct (Req_EM_T b 0) as [->|B]|];
    split; try reflexivity; try discriminate; intro H; injection H; intros; contradiction.
Qed.

Lemma zero_bits (v w : cR) : (v = (0, 0) <-> w = (0, 0)) ->
  (if Req_EM_T (fst v) 0 then (if Req_EM_T (snd v) 0 then true else false) else false) =
  (if Req_EM_T (fst w) 0 then (if Req_EM_T (snd w) 0 then true else false) else false).
Proof.
  intro H. rewrite <- !zero_bit in H.
  destruct (if Req_EM_T (fst v) 0 then _ else false), (if Req_EM_T (fst w) 0 then _ else false); try reflexivity.
  - destruct H as [H _]. symmetry. apply H. reflexivity.
  - destruct H as [_ H]. apply H. reflexivity.
Qed.

Section Lines.
  Variable free : Prop.
  Variable r0 : rect.

  Lemma turn_line_alike turns (f g : cplx -> cR) deltaPhi maxPrecision numPts precision fuel :
    (forall z, seen free r0 z -> vanishes f z = vanishes g z) ->
    (forall z z', seen free r0 z -> seen free r0 z' -> phase_step f z z' = phase_step g z z') ->
    follows free r0 (turn_line turns f deltaPhi maxPrecision numPts precision fuel)
            (turn_line turns g deltaPhi maxPrecision numPts precision fuel).
  Proof.
    intros Hz Hp k a b s Ha Hb U. unfold turn_line in *. unfold sum_line in *.
    rewrite (sumLine_local free r0 0%R Rplus Ropp (vanishes f) (vanishes g) (phase_step f) (phase_step g)); try assumption.
    - reflexivity.
    - destruct U as [U|U]; [left; exact U|right].
      destruct (sumLine 0%R Rplus Ropp (vanishes f) _ _ _ _ _ _ _ _ _ _ _) as [st' [found p|e|]]; cbn in *.
      + destruct U as [-> _]. reflexivity.
      + destruct U as [_ [v C]]. discriminate.
      + destruct U as [_ [v C]]. discriminate.
  Qed.

  Lemma turn_line_scaled turns (f g : cplx -> cR) deltaPhi maxPrecision numPts precision fuel c k :
    c <> (0, 0) -> (forall z, seen free r0 z -> 0 < k z /\ g z = times c (stretched (k z) (f z))) ->
    follows free r0 (turn_line turns f deltaPhi maxPrecision numPts precision fuel)
            (turn_line turns g deltaPhi maxPrecision numPts precision fuel).
  Proof.
    intros C H. apply turn_line_alike.
    - intros z Hz. destruct (H z Hz) as [K E]. unfold vanishes. rewrite E. apply zero_bits. symmetry. apply scaled_zero; assumption.
    - intros z z' Hz Hz'. destruct (H z Hz) as [K E], (H z' Hz') as [K' E']. unfold phase_step. rewrite E, E'.
      rewrite quotient_scaled by assumption. symmetry. apply arctan2_stretched. apply Rdiv_lt_0_compat; assumption.
  Qed.

  Lemma integrand_scaled f df g dg order z c : c <> (0, 0) -> g z = times c (f z) -> dg z = times c (df z) ->
    integrand g dg order z = integrand f df order z.
  Proof.
    intros C Hg Hd. pose proof (norm_pos c C) as N. unfold integrand. rewrite Hg, Hd.
    destruct (cR_pow (to_cR z) order) as [p q]. destruct (f z) as [v1 v2], (df z) as [w1 w2], c as [c1 c2].
    unfold cR_div, cR_mul, times. cbn [fst snd] in *.
    destruct (Req_dec (v1 * v1 + v2 * v2) 0) as [V|V].
    - assert (V2 : v1 = 0 /\ v2 = 0).
      { destruct (Req_dec v1 0) as [->|A].
        - destruct (Req_dec v2 0) as [->|B]; [auto|]. exfalso. pose proof (Rsqr_pos_lt v2 B) as P. unfold Rsqr in P. lra.
        - exfalso. pose proof (Rsqr_pos_lt v1 A) as P. pose proof (Rle_0_sqr v2) as P2. unfold Rsqr in *. lra. }
      destruct V2 as [-> ->]. unfold Rdiv. f_equal; rewrite ?Rmult_0_r, ?Rminus_0_r, ?Rplus_0_r, ?Rmult_0_r, ?Rmult_0_l, ?Rminus_0_r, ?Rplus_0_r, ?Rmult_0_r, ?Rmult_0_l, ?Rmult_0_r; ring.
    - assert (M : (c1 * v1 - c2 * v2) * (c1 * v1 - c2 * v2) + (c1 * v2 + c2 * v1) * (c1 * v2 + c2 * v1)
        = (c1 * c1 + c2 * c2) * (v1 * v1 + v2 * v2)) by ring.
      rewrite M. f_equal; field; split; lra.
  Qed.

  Lemma quad_line_scaled turns romb (f g : cplx -> R * R) df dg precision fuel c :
    c <> (0, 0) -> (forall z, seen free r0 z -> g z = times c (f z)) ->
    both (fun a b => forall z, seen free r0 z -> b z = times c (a z)) df dg ->
    follows free r0 (quad_turn_line turns romb f df precision fuel) (quad_turn_line turns romb g dg precision fuel).
  Proof.
    intros C Hfg Hd k a b s Ha Hb U. unfold quad_turn_line, quad_line in *.
    destruct df as [df|], dg as [dg|]; cbn [both] in Hd; try contradiction; [|reflexivity].
    rewrite (quad_iterate_local free r0 (fun z => is_zero_R (f z)) (fun z => is_zero_R (g z))
      (integrand f df (Z.to_nat k)) (integrand g dg (Z.to_nat k))); try assumption.
    - reflexivity.
    - intros z Hz. unfold is_zero_R. rewrite (Hfg z Hz). apply zero_bits. symmetry.
      replace (times c (f z)) with (times c (stretched 1 (f z))).
      + apply scaled_zero; [exact C|lra].
      + f_equal. unfold stretched. rewrite !Rmult_1_l. destruct (f z); reflexivity.
    - intros z Hz. symmetry. apply (integrand_scaled f df g dg _ z c C); auto.
    - destruct U as [U|U]; [left; exact U|right].
      cbv zeta in U.
      destruct (quad_iterate (fun z => is_zero_R (f z)) _ _ _ _ _ _ _ _) as [cc s'|e|]; cbn [quad_found fst snd] in *.
      + destruct U as [-> _]. reflexivity.
      + destruct U as [_ [v X]]. discriminate.
      + destruct U as [_ [v X]]. discriminate.
  Qed.
End Lines.

Open Scope Z_scope.
Section Searches.
  Variables (turns : R -> Q) (debug : bool) (precision : Z * Z) (fuel : nat) (secant : cplx -> cplx -> res cplx) (newton : cplx -> res cplx)
    (polyroots : list cplx -> res (list cplx)) (has_df progress : bool).

  Lemma sum_scaled (f g : cplx -> cR) deltaPhi maxPrecision numPts v depth r s s' l :
    proper r -> rescaled_on r f g ->
    calcRoots (sum_env turns f deltaPhi maxPrecision numPts precision fuel debug secant newton polyroots has_df progress) v depth r s
      = (s', l, Done tt) -> no_contour_zero l ->
    calcRoots (sum_env turns g deltaPhi maxPrecision numPts precision fuel debug secant newton polyroots has_df progress) v depth r s
      = (s', l, Done tt).
  Proof.
    intros P (c & k & C & H) R Z. rewrite <- R. unfold sum_env in *. apply (cached_search False r); [|exact P|].
    - apply (turn_line_scaled False r turns f g deltaPhi maxPrecision numPts precision fuel c k C).
      intros z Hz. apply H, seen_in, Hz.
    - rewrite R. right. split; [exact Z|]. exists tt. reflexivity.
  Qed.

  Lemma sum_scaled_everywhere (f g : cplx -> cR) c k deltaPhi maxPrecision numPts v depth r s :
    proper r -> c <> (0, 0)%R -> (forall z, (0 < k z)%R) -> (forall z, g z = times c (stretched (k z) (f z))) ->
    calcRoots (sum_env turns g deltaPhi maxPrecision numPts precision fuel debug secant newton polyroots has_df progress) v depth r s
    = calcRoots (sum_env turns f deltaPhi maxPrecision numPts precision fuel debug secant newton polyroots has_df progress) v depth r s.
  Proof.
    intros P C K H. unfold sum_env. apply (cached_search True r); [|exact P|left; exact Logic.I].
    apply (turn_line_scaled True r turns f g deltaPhi maxPrecision numPts precision fuel c k C). intros z _. auto.
  Qed.

  Lemma quad_scaled romb (f g : cplx -> R * R) df dg v depth r s s' l :
    proper r -> multiplied_on r f g df dg ->
    calcRoots (quad_env turns romb f df precision fuel debug secant newton polyroots has_df progress) v depth r s
      = (s', l, Done tt) -> no_contour_zero l ->
    calcRoots (quad_env turns romb g dg precision fuel debug secant newton polyroots has_df progress) v depth r s
      = (s', l, Done tt).
  Proof.
    intros P (c & C & H & D) R Z. rewrite <- R. unfold quad_env in *. apply (cached_search False r); [|exact P|].
    - apply (quad_line_scaled False r turns romb f g df dg precision fuel c C).
      + intros z Hz. apply H, seen_in, Hz.
      + destruct df, dg; cbn [both] in *; auto. intros z Hz. apply D, seen_in, Hz.
    - rewrite R. right. split; [exact Z|]. exists tt. reflexivity.
  Qed.

  Lemma quad_scaled_everywhere romb (f g df dg : cplx -> R * R) c v depth r s :
    proper r -> c <> (0, 0)%R -> (forall z, g z = times c (f z)) -> (forall z, dg z = times c (df z)) ->
    calcRoots (quad_env turns romb g (Some dg) precision fuel debug secant newton polyroots has_df progress) v depth r s
    = calcRoots (quad_env turns romb f (Some df) precision fuel debug secant newton polyroots has_df progress) v depth r s.
  Proof.
    intros P C H D. unfold quad_env. apply (cached_search True r); [|exact P|left; exact Logic.I].
    apply (quad_line_scaled True r turns romb f g (Some df) (Some dg) precision fuel c C); [auto|]. cbn [both]. auto.
  Qed.

  Lemma finder_scaled deltaPhi maxPrecision n v depth info s (f g : cplx -> cR) c k fH dfH dflt reRan imRan prec cont :
    c <> (0, 0)%R -> (forall z, (0 < k z)%R) -> (forall z, g z = times c (stretched (k z) (f z))) ->
    calculateRoots fH dfH dflt (argument_algorithm
      (sum_env turns g deltaPhi maxPrecision n precision fuel debug secant newton polyroots has_df progress) v depth info s) reRan imRan prec cont =
    calculateRoots fH dfH dflt (argument_algorithm
      (sum_env turns f deltaPhi maxPrecision n precision fuel debug secant newton polyroots has_df progress) v depth info s) reRan imRan prec cont.
  Proof.
    intros C K H. apply finder_same.
    destruct (context_proper fH dfH dflt reRan imRan prec) as [P I0].
    unfold sum_env in *. apply (algorithm_same True); [exact P| |left; exact Logic.I].
    apply (turn_line_scaled True _ turns f g deltaPhi maxPrecision n precision fuel c k C). intros z _. auto.
  Qed.
End Searches.
