(** * arctan2 and sums of phase differences *)
From Coq Require Import Reals.
From Verif Require Import PyBase Sum_Model Sum_Spec.
From Coq Require Import Lra.
Open Scope R_scope.

Lemma norm_pos x y : (x, y) <> (0, 0) -> 0 < x * x + y * y.
Proof.
  intro H. destruct (Req_dec x 0) as [->|Hx].
  - assert (y <> 0) by congruence. nra.
  - nra.
Qed.

Lemma arctan2_polar z : nonzero z -> exists r, polar z r (arctan2 z).
Proof.
  destruct z as [x y]. unfold nonzero. intro N.
  exists (sqrt (x * x + y * y)). pose proof (norm_pos x y N) as HN.
  assert (HR : 0 < sqrt (x * x + y * y)) by (apply sqrt_lt_R0; exact HN).
  unfold polar, arctan2. cbn [fst snd]. split; [exact HR|].
  assert (HS : forall x, x <> 0 -> sqrt (x * x + y * y) = Rabs x * sqrt (1 + (y / x)²)).
  { intros t Ht. rewrite <- sqrt_Rsqr_abs, <- sqrt_mult.
    - f_equal. unfold Rsqr. field. exact Ht.
    - apply Rle_0_sqr.
    - pose proof (Rle_0_sqr (y / t)). lra. }
  assert (HP : forall u : R, 0 < sqrt (1 + u²)).
  { intro u. apply sqrt_lt_R0. pose proof (Rle_0_sqr u). lra. }
  destruct (Rlt_dec 0 x) as [Hx|Hx].
  - rewrite cos_atan, sin_atan, (HS x) by lra. rewrite Rabs_pos_eq by lra.
    pose proof (HP (y / x)). split; field; lra.
  - destruct (Rlt_dec x 0) as [Hx'|Hx'].
    + pose proof (HP (y / x)). rewrite (HS x) by lra. rewrite Rabs_left by lra.
      destruct (Rle_dec 0 y).
      * rewrite neg_cos, neg_sin, cos_atan, sin_atan. split; field; lra.
      * replace (atan (y / x) - PI) with (- (PI - atan (y / x))) by ring.
        rewrite cos_neg, sin_neg, Rtrigo_facts.cos_pi_minus, Rtrigo_facts.sin_pi_minus, cos_atan, sin_atan.
        split; field; lra.
    + assert (x = 0) as -> by lra. replace (0 * 0 + y * y) with (y * y) by ring.
      destruct (Rlt_dec 0 y).
      * rewrite cos_PI2, sin_PI2, sqrt_square by lra. split; ring.
      * destruct (Rlt_dec y 0).
        { rewrite cos_neg, sin_neg, cos_PI2, sin_PI2.
          replace (y * y) with (- y * - y) by ring. rewrite sqrt_square by lra. split; ring. }
        { exfalso. apply N. f_equal; lra. }
Qed.

Lemma arctan2_range z : - PI < arctan2 z <= PI.
Proof.
  destruct z as [x y]. unfold arctan2. pose proof PI_RGT_0.
  pose proof (atan_bound (y / x)) as B.
  destruct (Rlt_dec 0 x); [lra|]. destruct (Rlt_dec x 0).
  - destruct (Rle_dec 0 y) as [Hy|Hy].
    + assert (atan (y / x) <= 0); [|lra].
      rewrite <- atan_0. destruct (Req_dec y 0) as [->|Hy0].
      * unfold Rdiv. rewrite Rmult_0_l. lra.
      * left. apply atan_increasing. unfold Rdiv. assert (/ x < 0) by (apply Rinv_lt_0_compat; lra). nra.
    + assert (0 < atan (y / x)); [|lra].
      rewrite <- atan_0. apply atan_increasing. unfold Rdiv. assert (/ x < 0) by (apply Rinv_lt_0_compat; lra). nra.
  - destruct (Rlt_dec 0 y); [lra|]. destruct (Rlt_dec y 0); lra.
Qed.

Lemma cos_1 x : cos x = 1 -> exists k, x = 2 * PI * IZR k.
Proof.
  intro H. assert (S : sin (x / 2) = 0).
  { pose proof (cos_2a_sin (x / 2)) as C. replace (2 * (x / 2)) with x in C by field.
    assert (sin (x / 2) * sin (x / 2) = 0) by lra. nra. }
  destruct (sin_eq_0_0 _ S) as [k Hk]. exists k. lra.
Qed.

Lemma polar_unique z r a r' a' : polar z r a -> polar z r' a' -> exists k, a' = a + 2 * PI * IZR k.
Proof.
  intros (R1 & X1 & Y1) (R2 & X2 & Y2).
  assert (HR : r * r = r' * r').
  { assert (fst z * fst z + snd z * snd z = r * r).
    { rewrite X1, Y1. pose proof (sin2_cos2 a) as S. unfold Rsqr in S. nra. }
    assert (fst z * fst z + snd z * snd z = r' * r').
    { rewrite X2, Y2. pose proof (sin2_cos2 a') as S. unfold Rsqr in S. nra. }
    lra. }
  assert (r = r') as <- by nra.
  assert (C : cos a = cos a') by nra. assert (S : sin a = sin a') by nra.
  destruct (cos_1 (a' - a)) as [k Hk].
  { rewrite cos_minus, C, S. pose proof (sin2_cos2 a') as P. unfold Rsqr in P. lra. }
  exists k. lra.
Qed.

Lemma polar_nonzero z r a : polar z r a -> nonzero z.
Proof.
  intros (R & X & Y) ->. cbn in X, Y. pose proof (sin2_cos2 a) as P. unfold Rsqr in P.
  assert (cos a = 0) by nra. assert (sin a = 0) by nra. nra.
Qed.

Lemma polar_quotient z r a w r' a' : polar z r a -> polar w r' a' -> polar (quotient w z) (r' / r) (a' - a).
Proof.
  intros (R1 & X1 & Y1) (R2 & X2 & Y2).
  assert (HN : fst z * fst z + snd z * snd z = r * r).
  { rewrite X1, Y1. pose proof (sin2_cos2 a) as S. unfold Rsqr in S. nra. }
  unfold polar, quotient. cbn [fst snd]. rewrite HN, X1, Y1, X2, Y2, cos_minus, sin_minus.
  split; [apply Rdiv_lt_0_compat; assumption|]. split; field; lra.
Qed.

Lemma polar_move z r a w b r' : polar z r a -> nonzero w -> polar (quotient w z) r' b ->
  exists r'', polar w r'' (a + b).
Proof.
  intros P N Q. destruct (arctan2_polar w N) as [rw W].
  destruct (polar_unique _ _ _ _ _ Q (polar_quotient _ _ _ _ _ _ P W)) as [k Hk].
  exists rw. destruct W as (W1 & W2 & W3). split; [exact W1|].
  replace (a + b) with (arctan2 w + 2 * IZR (- k) * PI).
  2:{ rewrite opp_IZR. lra. }
  assert (E : cos (arctan2 w + 2 * IZR (- k) * PI) = cos (arctan2 w) /\
              sin (arctan2 w + 2 * IZR (- k) * PI) = sin (arctan2 w)).
  { rewrite cos_plus, sin_plus.
    assert (C : cos (2 * IZR (- k) * PI) = 1 /\ sin (2 * IZR (- k) * PI) = 0).
    { set (j := (- k)%Z).
      assert (G : forall n : nat, cos (2 * INR n * PI) = 1 /\ sin (2 * INR n * PI) = 0).
      { intro n. pose proof (cos_period 0 n) as C. pose proof (sin_period 0 n) as S.
        rewrite Rplus_0_l in C, S. rewrite cos_0 in C. rewrite sin_0 in S. split; assumption. }
      destruct (Z_le_gt_dec 0 j) as [L|L].
      - destruct (G (Z.to_nat j)) as [G1 G2]. rewrite INR_IZR_INZ, Z2Nat.id in G1, G2 by lia. auto.
      - destruct (G (Z.to_nat (- j))) as [G1 G2].
        rewrite INR_IZR_INZ, Z2Nat.id, opp_IZR in G1, G2 by lia.
        replace (2 * - IZR j * PI) with (- (2 * IZR j * PI)) in G1, G2 by ring.
        rewrite cos_neg in G1. rewrite sin_neg in G2. split; lra. }
    destruct C as [-> ->]. split; ring. }
  destruct E as [-> ->]. split; assumption.
Qed.

(** ** Sums along a list of values *)
Lemma fold_plus l : forall a, fold_left Rplus l a = a + fold_left Rplus l 0.
Proof.
  induction l as [|x l IH]; intro a; cbn; [ring|]. rewrite (IH (a + x)), (IH (0 + x)). ring.
Qed.
Lemma Rsum_cons x l : Rsum (x :: l) = x + Rsum l.
Proof. unfold Rsum. cbn. rewrite fold_plus. ring. Qed.
Lemma Rsum_app l l' : Rsum (l ++ l') = Rsum l + Rsum l'.
Proof.
  induction l as [|x l IH]; cbn [app]; [unfold Rsum at 2; cbn; ring|]. rewrite !Rsum_cons, IH. ring.
Qed.

Lemma last_indep {A} (l : list A) : forall x d d', last (x :: l) d = last (x :: l) d'.
Proof.
  induction l as [|y l IH]; intros x d d'; [reflexivity|].
  change (last (y :: l) d = last (y :: l) d'). apply IH.
Qed.

Lemma steps_polar vs : forall v r a, Forall nonzero (v :: vs) -> polar v r a ->
  exists r', polar (last (v :: vs) v) r' (a + Rsum (steps (v :: vs))).
Proof.
  induction vs as [|w vs IH]; intros v r a HN HP.
  - exists r. cbn. unfold Rsum. cbn. rewrite Rplus_0_r. exact HP.
  - inversion HN as [|? ? H1 H2]; subst. inversion H2 as [|? ? H3 H4]; subst.
    assert (Q : exists rq, polar (quotient w v) rq (arctan2 (quotient w v))).
    { destruct (arctan2_polar w H3) as [rw W]. apply arctan2_polar.
      eapply polar_nonzero, polar_quotient; eauto. }
    destruct Q as [rq Q]. destruct (polar_move _ _ _ _ _ _ HP H3 Q) as [rw W].
    destruct (IH w rw _ H2 W) as [r' P]. exists r'.
    change (steps (v :: w :: vs)) with (arctan2 (quotient w v) :: steps (w :: vs)).
    rewrite Rsum_cons, <- Rplus_assoc. change (last (v :: w :: vs) v) with (last (w :: vs) v).
    rewrite (last_indep vs w v w). exact P.
Qed.

(** The exact phase difference, if neighbouring true angles differ by less than half a turn. *)
Lemma step_exact z r a w r' a' : polar z r a -> polar w r' a' -> Rabs (a' - a) < PI ->
  arctan2 (quotient w z) = a' - a.
Proof.
  intros P W B.
  pose proof (polar_quotient _ _ _ _ _ _ P W) as Q.
  destruct (arctan2_polar _ (polar_nonzero _ _ _ Q)) as [rq A].
  destruct (polar_unique _ _ _ _ _ Q A) as [k Hk].
  pose proof (arctan2_range (quotient w z)) as G. apply Rabs_def2 in B. pose proof PI_RGT_0.
  assert (k = 0)%Z.
  { assert (-1 < IZR k < 1) as [K1 K2] by (split; nra).
    change (-1) with (IZR (-1)) in K1. change 1 with (IZR 1) in K2.
    apply lt_IZR in K1. apply lt_IZR in K2. lia. }
  subst k. lra.
Qed.
