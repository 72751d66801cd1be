From Coq Require Import Reals Qreals.
From Verif Require Import PyBase Rounding_Model Poly_Model Container_Model Finder_Model Refine_Model Refine_Spec Refine_Proofs Refine_Proofs2
  Cache_Model Sum_Model Sum_Spec Quad_Model Whole_Model Qsearch_Model EndToEnd_Model Local_Spec Local_Proofs Local_Proofs2.
From Coq Require Import Lqa.
Open Scope Z_scope.

Lemma no_zero_app l1 l2 : no_contour_zero (l1 ++ l2) -> no_contour_zero l1 /\ no_contour_zero l2.
Proof.
  intro H. split; intros z Hz; apply (H z); rewrite roots_app; apply in_or_app; auto.
Qed.

Section Search.
  Variable free : Prop.
  Variable r0 : rect.
  Context {S : Type} (E E' : env S).
  Hypothesis same_rm : e_rm E = e_rm E'.
  Hypothesis same_dirty : e_dirty E = e_dirty E'.
  Hypothesis same_reset : e_reset E = e_reset E'.
  Hypothesis same_secant : e_secant E = e_secant E'.
  Hypothesis same_newton : e_newton E = e_newton E'.
  Hypothesis same_roots : e_polyroots E = e_polyroots E'.
  Hypothesis same_df : e_has_df E = e_has_df E'.
  Hypothesis same_prec : e_precision E = e_precision E'.
  Hypothesis same_prog : e_progress E = e_progress E'.
  Hypothesis same_est : forall k q s, proper q -> sub_rect q r0 ->
    good_answer free (e_est E k q s) -> e_est E' k q s = e_est E k q s.

  Definition admissible {A} (x : S * list event * outcome A) : Prop :=
    free \/ (no_contour_zero (snd (fst x)) /\ exists a, snd x = Done a).
  Definition sameif {A} (m m' : @M S A) : Prop := forall s, admissible (m s) -> m' s = m s.

  Lemma sameif_refl {A} (m : @M S A) : sameif m m.
  Proof. intros s _. reflexivity. Qed.

  Lemma sameif_bind {A B} (m m' : @M S A) (k k' : A -> @M S B) :
    sameif m m' -> (forall a, sameif (k a) (k' a)) -> sameif (mbind m k) (mbind m' k').
  Proof.
    intros Hm Hk s. unfold mbind. specialize (Hm s).
    destruct (m s) as [[s1 l1] [a|e|]].
    - specialize (Hk a s1). destruct (k a s1) as [[s2 l2] o]. intro U.
      assert (U1 : admissible (s1, l1, Done a)).
      { destruct U as [U|[U _]]; [left; exact U|right]. cbn in *. apply no_zero_app in U. split; [tauto|]. exists a. reflexivity. }
      assert (U2 : admissible (s2, l2, o)).
      { destruct U as [U|[U V]]; [left; exact U|right]. cbn in *. apply no_zero_app in U. split; [tauto|exact V]. }
      rewrite (Hm U1), (Hk U2). reflexivity.
    - intros [U|[_ [b C]]]; [|discriminate]. rewrite (Hm (or_introl U)). reflexivity.
    - intros [U|[_ [b C]]]; [|discriminate]. rewrite (Hm (or_introl U)). reflexivity.
  Qed.

  Lemma sameif_seq {A B} (m m' : @M S A) (k k' : @M S B) : sameif m m' -> sameif k k' -> sameif (mseq m k) (mseq m' k').
  Proof. intros H K. apply sameif_bind; auto. Qed.

  Lemma sameif_moment k q : proper q -> sub_rect q r0 -> sameif (calcMoment E k q) (calcMoment E' k q).
  Proof.
    intros P Sq s. unfold calcMoment. specialize (same_est k q s P Sq).
    destruct (e_est E k q s) as [[s' zs] v]. intro U. rewrite same_est; [reflexivity|].
    destruct U as [U|[U [a V]]]; [left; exact U|right]. cbn [fst snd] in *. split.
    - destruct zs as [|z zs]; [reflexivity|]. exfalso. apply (U z). left. reflexivity.
    - destruct v as [v|e]; [exists v; reflexivity|discriminate].
  Qed.

  Lemma sameif_refined q : proper q -> sub_rect q r0 -> sameif (calculateRefinedMoment E q) (calculateRefinedMoment E' q).
  Proof. intros P Sq. unfold calculateRefinedMoment. apply sameif_bind; [apply sameif_moment; assumption|]. intro. apply sameif_refl. Qed.

  Lemma sameif_rm a b : sameif (cacheRemove E a b) (cacheRemove E' a b).
  Proof. intros s _. unfold cacheRemove. rewrite same_rm. reflexivity. Qed.
  Lemma sameif_advance a : sameif (advance E a) (advance E' a).
  Proof. unfold advance. rewrite same_prog. apply sameif_refl. Qed.
  Lemma sameif_getRoot q phi : sameif (getRootFromRectangle E q phi) (getRootFromRectangle E' q phi).
  Proof. unfold getRootFromRectangle. apply sameif_seq; [apply sameif_refl|apply sameif_advance]. Qed.

  Lemma half_mid' (a b : Q) : (a <= b -> a <= (a + b) / 2 /\ (a + b) / 2 <= b)%Q.
  Proof. intro H. split; [apply Qle_shift_div_l; [reflexivity|lra]|apply Qle_shift_div_r; [reflexivity|lra]]. Qed.

  Lemma sameif_simple d d' q phi : proper q -> sub_rect q r0 ->
    (forall q' phi', proper q' -> sub_rect q' r0 -> sameif (d q' phi') (d' q' phi')) ->
    sameif (decide_simple E d q phi) (decide_simple E' d' q phi).
  Proof.
    intros P Sq Hd. unfold decide_simple, epsRe, epsIm. rewrite same_prec.
    destruct (Qltb phi TWO_PI); [apply sameif_seq; [apply sameif_refl|apply sameif_advance]|].
    destruct (_ && _); [apply sameif_getRoot|].
    destruct P as [Px Py]. destruct (half_mid' _ _ Px) as [M1 M2], (half_mid' _ _ Py) as [M3 M4].
    destruct Sq as (S1 & S2 & S3 & S4).
    destruct (Qltb _ _); cbv zeta.
    - assert (PL : proper (mkRect (x1 q) ((x1 q + x2 q) / 2) (y1 q) (y2 q)) /\ sub_rect (mkRect (x1 q) ((x1 q + x2 q) / 2) (y1 q) (y2 q)) r0).
      { set (mid := ((x1 q + x2 q) / 2)%Q) in *. unfold proper, sub_rect. cbn [x1 x2 y1 y2]. lra. }
      assert (PR : proper (mkRect ((x1 q + x2 q) / 2) (x2 q) (y1 q) (y2 q)) /\ sub_rect (mkRect ((x1 q + x2 q) / 2) (x2 q) (y1 q) (y2 q)) r0).
      { set (mid := ((x1 q + x2 q) / 2)%Q) in *. unfold proper, sub_rect. cbn [x1 x2 y1 y2]. lra. }
      apply sameif_bind; [apply sameif_refined; apply PL|intro p1].
      apply sameif_seq; [apply Hd; apply PL|]. apply sameif_seq; [apply sameif_rm|].
      apply sameif_bind; [apply sameif_refined; apply PR|intro p2].
      apply sameif_seq; [apply Hd; apply PR|apply sameif_rm].
    - assert (PL : proper (mkRect (x1 q) (x2 q) (y1 q) ((y1 q + y2 q) / 2)) /\ sub_rect (mkRect (x1 q) (x2 q) (y1 q) ((y1 q + y2 q) / 2)) r0).
      { set (mid := ((y1 q + y2 q) / 2)%Q) in *. unfold proper, sub_rect. cbn [x1 x2 y1 y2]. lra. }
      assert (PR : proper (mkRect (x1 q) (x2 q) ((y1 q + y2 q) / 2) (y2 q)) /\ sub_rect (mkRect (x1 q) (x2 q) ((y1 q + y2 q) / 2) (y2 q)) r0).
      { set (mid := ((y1 q + y2 q) / 2)%Q) in *. unfold proper, sub_rect. cbn [x1 x2 y1 y2]. lra. }
      apply sameif_bind; [apply sameif_refined; apply PL|intro p1].
      apply sameif_seq; [apply Hd; apply PL|]. apply sameif_seq; [apply sameif_rm|].
      apply sameif_bind; [apply sameif_refined; apply PR|intro p2].
      apply sameif_seq; [apply Hd; apply PR|apply sameif_rm].
  Qed.

  Lemma sameif_newton q phi : sameif (newton_branch E q phi) (newton_branch E' q phi).
  Proof.
    unfold newton_branch, advance. rewrite same_secant, same_newton, same_df, same_prog. apply sameif_refl.
  Qed.

  Lemma sameif_moments n : forall k q, proper q -> sub_rect q r0 -> sameif (moments_from E k n q) (moments_from E' k n q).
  Proof.
    induction n as [|n IH]; intros k q P Sq; cbn [moments_from]; [apply sameif_refl|].
    apply sameif_bind; [apply sameif_moment; assumption|intro m].
    apply sameif_bind; [apply IH; assumption|intro ms]. apply sameif_refl.
  Qed.

  Lemma sameif_decide v n : forall q phi, proper q -> sub_rect q r0 ->
    sameif (decideRefinement E v n q phi) (decideRefinement E' v n q phi).
  Proof.
    induction n as [|n IH]; intros q phi P Sq; cbn [decideRefinement]; [apply sameif_refl|].
    destruct v.
    - apply sameif_simple; auto.
    - unfold decide_newton, epsRe, epsIm. rewrite same_prec.
      destruct (_ && _); [apply sameif_getRoot|].
      destruct (_ && _); [apply sameif_newton|apply sameif_simple; auto].
    - unfold decide_poly, epsRe, epsIm. rewrite same_prec, same_df, same_roots.
      destruct (negb _); [apply sameif_refl|].
      destruct (_ && _); [apply sameif_getRoot|].
      destruct (_ && _); [|apply sameif_simple; auto].
      apply sameif_bind; [apply sameif_moments; assumption|]. intro ms.
      destruct (e_polyroots E' _); [|apply sameif_refl].
      apply sameif_seq; [apply sameif_refl|apply sameif_advance].
  Qed.

  Lemma sameif_calcRoots v n : proper r0 -> sameif (calcRoots E v n r0) (calcRoots E' v n r0).
  Proof.
    intros P s. unfold calcRoots. rewrite same_dirty, same_reset.
    set (s0 := if e_dirty E' s then e_reset E' s else s).
    apply (sameif_bind (calcMoment E 0 r0) (calcMoment E' 0 r0)).
    - apply sameif_moment; [exact P|apply sub_rect_refl].
    - intro m. apply sameif_decide; [exact P|apply sub_rect_refl].
  Qed.
End Search.

(** ** The two estimators *)
Lemma seen_in r z : seen False r z -> inside r z.
Proof. intros [[A B] [C|[C D]]]; [destruct C|]. unfold inside. lra. Qed.

Lemma cached_search free r (LS : Type) (line line' : Z -> cplx -> cplx -> LS -> LS * list cplx * res cplx)
    debug secant newton polyroots has_df precision progress v depth :
  follows free r line line' -> proper r ->
  sameif free (calcRoots (cached_env line debug secant newton polyroots has_df precision progress) v depth r)
    (calcRoots (cached_env line' debug secant newton polyroots has_df precision progress) v depth r).
Proof.
  intros F P. apply sameif_calcRoots; try reflexivity; [|exact P].
  intros k q s Pq Sq U. cbn [e_est cached_env] in *.
  apply (moment_local free r line line' debug F); assumption.
Qed.

Section Estimators.
  Context (turns : R -> Q) (debug : bool) (precision : Z * Z) (fuel : nat)
    (secant : cplx -> cplx -> res cplx) (newton : cplx -> res cplx) (polyroots : list cplx -> res (list cplx))
    (has_df progress : bool).

  Lemma sum_domain (f g : cplx -> cR) deltaPhi maxPrecision numPts v depth r s s' l :
    proper r -> same_on r f g ->
    calcRoots (sum_env turns f deltaPhi maxPrecision numPts precision fuel debug secant newton polyroots has_df progress) v depth r s
      = (s', l, Done tt) -> no_contour_zero l ->
    calcRoots (sum_env turns g deltaPhi maxPrecision numPts precision fuel debug secant newton polyroots has_df progress) v depth r s
      = (s', l, Done tt).
  Proof.
    intros P H C Z. rewrite <- C. unfold sum_env in *. apply (cached_search False r); [|exact P|].
    - apply turn_line_local. intros z Hz. apply H, seen_in, Hz.
    - rewrite C. right. split; [exact Z|]. exists tt. reflexivity.
  Qed.

  Lemma sum_beyond (f g : cplx -> cR) deltaPhi maxPrecision numPts v depth r s :
    proper r -> same_beyond r f g ->
    calcRoots (sum_env turns f deltaPhi maxPrecision numPts precision fuel debug secant newton polyroots has_df progress) v depth r s
    = calcRoots (sum_env turns g deltaPhi maxPrecision numPts precision fuel debug secant newton polyroots has_df progress) v depth r s.
  Proof.
    intros P H. symmetry. unfold sum_env. apply (cached_search True r); [|exact P|left; exact Logic.I].
    apply turn_line_local. intros z [[A B] _]. apply H; assumption.
  Qed.

  Lemma quad_domain romb (f g : cplx -> R * R) df dg v depth r s s' l :
    proper r -> same_on r f g -> both (same_on r) df dg ->
    calcRoots (quad_env turns romb f df precision fuel debug secant newton polyroots has_df progress) v depth r s
      = (s', l, Done tt) -> no_contour_zero l ->
    calcRoots (quad_env turns romb g dg precision fuel debug secant newton polyroots has_df progress) v depth r s
      = (s', l, Done tt).
  Proof.
    intros P H D C Z. rewrite <- C. unfold quad_env in *. apply (cached_search False r); [|exact P|].
    - apply quad_turn_line_local; [intros z Hz; apply H, seen_in, Hz|].
      destruct df, dg; cbn [both] in *; auto. intros z Hz. apply D, seen_in, Hz.
    - rewrite C. right. split; [exact Z|]. exists tt. reflexivity.
  Qed.

  Lemma quad_beyond romb (f g : cplx -> R * R) df dg v depth r s :
    proper r -> same_beyond r f g -> both (same_beyond r) df dg ->
    calcRoots (quad_env turns romb f df precision fuel debug secant newton polyroots has_df progress) v depth r s
    = calcRoots (quad_env turns romb g dg precision fuel debug secant newton polyroots has_df progress) v depth r s.
  Proof.
    intros P H D. symmetry. unfold quad_env. apply (cached_search True r); [|exact P|left; exact Logic.I].
    apply quad_turn_line_local; [intros z [[A B] _]; apply H; assumption|].
    destruct df, dg; cbn [both] in *; auto. intros z [[A B] _]. apply D; assumption.
  Qed.
End Estimators.
