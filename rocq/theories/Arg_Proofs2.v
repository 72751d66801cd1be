(** * The argument of a factorised function along lines and around rectangles *)
From Coq Require Import Reals Qreals.
From Verif Require Import PyBase Refine_Model Zeros_Spec Sum_Model Sum_Spec Angle_Proofs Arg_Spec Arg_Proofs.
From Coq Require Import Lqa Lra.
Open Scope R_scope.

Definition along (horiz : bool) (w : point) : R := if horiz then fst w else snd w.
Definition across (horiz : bool) (w : point) : R := if horiz then snd w else fst w.
Definition angs (horiz : bool) (zeros : list point) (l u : R) : R :=
  fold_right (fun w s => ang horiz (l - across horiz w) (u - along horiz w) + s) 0 zeros.

Lemma polar_mul a b r s t t' : polar a r t -> polar b s t' -> polar (cmulR a b) (r * s) (t + t').
Proof.
  intros (A & B & C) (A' & B' & C'). split; [apply Rmult_lt_0_compat; assumption|].
  unfold cmulR. cbn [fst snd]. rewrite B, C, B', C', cos_plus, sin_plus. split; ring.
Qed.

Lemma minus_put horiz level t w :
  minus_zero (mkpoint horiz level t) w = put horiz (Q2R t - along horiz w) (Q2R level - across horiz w).
Proof. destruct horiz; reflexivity. Qed.

Lemma product_polar horiz level t zeros :
  (forall w, In w zeros -> Q2R t - along horiz w <> 0 \/ Q2R level - across horiz w <> 0) ->
  exists r, polar (zero_product zeros (mkpoint horiz level t)) r (angs horiz zeros (Q2R level) (Q2R t)).
Proof.
  induction zeros as [|w l IH]; intro H.
  - exists 1. unfold polar. cbn. rewrite cos_0, sin_0. lra.
  - destruct (IH (fun w' Hw => H w' (or_intror Hw))) as [r R].
    destruct (ang_polar horiz (Q2R level - across horiz w) (Q2R t - along horiz w) (H w (or_introl eq_refl))) as [s S].
    exists (s * r). cbn [zero_product angs fold_right]. rewrite minus_put. apply polar_mul; assumption.
Qed.

(** Every zero is at least [d] away from the points with coordinates between [t1] and [t2]. *)
Definition apart (d : R) (horiz : bool) (level t1 t2 : Q) (zeros : list point) : Prop :=
  forall w s, In w zeros -> Q2R t1 <= s <= Q2R t2 ->
    d * d <= (s - along horiz w) * (s - along horiz w) +
             (Q2R level - across horiz w) * (Q2R level - across horiz w).

Lemma angs_lip d horiz level t1 t2 zeros t t' : 0 < d -> apart d horiz level t1 t2 zeros ->
  (t1 <= t)%Q -> (t <= t')%Q -> (t' <= t2)%Q ->
  Rabs (angs horiz zeros (Q2R level) (Q2R t') - angs horiz zeros (Q2R level) (Q2R t))
  <= Q2R (t' - t) * (INR (List.length zeros) / d).
Proof.
  intros Hd HA H1 H2 H3. apply Qle_Rle in H1, H2, H3. rewrite Q2R_minus.
  induction zeros as [|w l IH].
  - cbn [angs fold_right List.length]. rewrite Rminus_eq_0, Rabs_R0. cbn. unfold Rdiv. lra.
  - cbn [angs fold_right]. fold (angs horiz l (Q2R level) (Q2R t')). fold (angs horiz l (Q2R level) (Q2R t)).
    specialize (IH (fun w' s Hw => HA w' s (or_intror Hw))).
    pose proof (ang_lip horiz (Q2R level - across horiz w) d (Q2R t - along horiz w) (Q2R t' - along horiz w) Hd) as A.
    assert (A' : Rabs (ang horiz (Q2R level - across horiz w) (Q2R t' - along horiz w) -
                       ang horiz (Q2R level - across horiz w) (Q2R t - along horiz w)) <= (Q2R t' - Q2R t) / d).
    { replace (Q2R t' - Q2R t) with ((Q2R t' - along horiz w) - (Q2R t - along horiz w)) by ring.
      apply A; [lra|]. intros s Hs. specialize (HA w (s + along horiz w) (or_introl eq_refl) ltac:(lra)).
      replace (s + along horiz w - along horiz w) with s in HA by ring. exact HA. }
    cbn [List.length]. rewrite S_INR.
    match goal with |- Rabs (?a + ?b - (?c + ?e)) <= _ => replace (a + b - (c + e)) with ((a - c) + (b - e)) by ring end.
    eapply Rle_trans; [apply Rabs_triang|].
    replace ((Q2R t' - Q2R t) * ((INR (List.length l) + 1) / d))
      with ((Q2R t' - Q2R t) / d + (Q2R t' - Q2R t) * (INR (List.length l) / d)) by (field; lra).
    lra.
Qed.

Section Target.
  Variables (f : cplx -> cR) (zeros : list point) (L : R) (D : rect) (rho theta : cplx -> R).
  Hypothesis L_pos : 0 <= L.
  Hypothesis f_eq : forall z, in_rect D z -> 0 < rho z /\
       f z = cmulR (zero_product zeros z) (rho z * cos (theta z), rho z * sin (theta z)).
  Hypothesis theta_lip : forall z z', in_rect D z -> in_rect D z' ->
       Rabs (theta z' - theta z) <= L * (Rabs (Q2R (re z' - re z)) + Rabs (Q2R (im z' - im z))).

  (** The argument of f. *)
  Definition Theta (horiz : bool) (level t : Q) : R :=
    angs horiz zeros (Q2R level) (Q2R t) + theta (mkpoint horiz level t).

  Lemma Theta_polar horiz level t d t1 t2 : 0 < d -> apart d horiz level t1 t2 zeros -> (t1 <= t)%Q -> (t <= t2)%Q ->
    in_rect D (mkpoint horiz level t) ->
    exists r, polar (f (mkpoint horiz level t)) r (Theta horiz level t).
  Proof.
    intros Hd HA H1 H2 HI. destruct (f_eq _ HI) as [F1 F2]. apply Qle_Rle in H1, H2.
    destruct (product_polar horiz level t zeros) as [r R].
    { intros w Hw. specialize (HA w (Q2R t) Hw ltac:(lra)).
      destruct (Req_EM_T (Q2R t - along horiz w) 0) as [E1|E1]; [|left; exact E1].
      destruct (Req_EM_T (Q2R level - across horiz w) 0) as [E2|E2]; [|right; exact E2].
      exfalso. rewrite E1, E2 in HA. nra. }
    exists (r * rho (mkpoint horiz level t)). rewrite F2. unfold Theta. apply polar_mul; [exact R|].
    unfold polar. cbn [fst snd]. repeat split; auto.
  Qed.

  Lemma Theta_lip horiz level d t1 t2 t t' : 0 < d -> apart d horiz level t1 t2 zeros ->
    (t1 <= t)%Q -> (t <= t')%Q -> (t' <= t2)%Q ->
    in_rect D (mkpoint horiz level t) -> in_rect D (mkpoint horiz level t') ->
    Rabs (Theta horiz level t' - Theta horiz level t) <= Q2R (t' - t) * (L + INR (List.length zeros) / d).
  Proof.
    intros Hd HA H1 H2 H3 I1 I2. unfold Theta.
    pose proof (angs_lip d horiz level t1 t2 zeros t t' Hd HA H1 H2 H3) as A.
    pose proof (theta_lip _ _ I1 I2) as B.
    assert (B' : Rabs (theta (mkpoint horiz level t') - theta (mkpoint horiz level t)) <= L * Q2R (t' - t)).
    { eapply Rle_trans; [exact B|]. apply Rmult_le_compat_l; [exact L_pos|].
      assert (E : forall q, (q == 0)%Q -> Rabs (Q2R q) = 0).
      { intros q Hq. apply Qeq_eqR in Hq. rewrite Hq, RMicromega.Q2R_0. apply Rabs_R0. }
      assert (P : Rabs (Q2R (t' - t)) = Q2R (t' - t)).
      { apply Rabs_pos_eq. rewrite Q2R_minus. apply Qle_Rle in H2. lra. }
      destruct horiz; cbn [mkpoint re im fst snd].
      - rewrite (E (level - level)%Q) by ring. lra.
      - rewrite (E (level - level)%Q) by ring. lra. }
    match goal with |- Rabs (?a + ?b - (?c + ?e)) <= _ => replace (a + b - (c + e)) with ((a - c) + (b - e)) by ring end.
    eapply Rle_trans; [apply Rabs_triang|]. lra.
  Qed.

  Lemma theta_ceq z z' : in_rect D z -> in_rect D z' -> ceq z z' -> theta z = theta z'.
  Proof.
    intros I1 I2 [E1 E2]. pose proof (theta_lip _ _ I1 I2) as B.
    assert (E : forall q, (q == 0)%Q -> Rabs (Q2R q) = 0).
    { intros q Hq. apply Qeq_eqR in Hq. rewrite Hq, RMicromega.Q2R_0. apply Rabs_R0. }
    rewrite (E (re z' - re z)%Q) in B by (rewrite E1; ring). rewrite (E (im z' - im z)%Q) in B by (rewrite E2; ring).
    rewrite Rplus_0_r, Rmult_0_r in B.
    pose proof (Rabs_pos (theta z' - theta z)) as P. destruct (Req_dec (theta z' - theta z) 0) as [Z|Z]; [lra|].
    pose proof (Rabs_pos_lt _ Z). lra.
  Qed.

  Lemma Theta_ceq horiz level level' t t' : (level == level')%Q -> (t == t')%Q ->
    in_rect D (mkpoint horiz level t) -> in_rect D (mkpoint horiz level' t') ->
    Theta horiz level t = Theta horiz level' t'.
  Proof.
    intros E1 E2 I1 I2. unfold Theta. rewrite (Qeq_eqR _ _ E1), (Qeq_eqR _ _ E2). f_equal.
    apply theta_ceq; try assumption. destruct horiz; split; assumption.
  Qed.

  (** ** Around a rectangle *)
  Lemma angs_diff horiz level t t' d t1 t2 : 0 < d -> apart d horiz level t1 t2 zeros ->
    (t1 <= t)%Q -> (t <= t')%Q -> (t' <= t2)%Q ->
    angs horiz zeros (Q2R level) (Q2R t') - angs horiz zeros (Q2R level) (Q2R t) =
    fold_right (fun w s => sg horiz * (at0 (Q2R t' - along horiz w) (Q2R level - across horiz w) -
      at0 (Q2R t - along horiz w) (Q2R level - across horiz w)) + s) 0 zeros.
  Proof.
    intros Hd HA H1 H2 H3. apply Qle_Rle in H1, H2, H3. clear f_eq theta_lip.
    induction zeros as [|w l IH]; [cbn; ring|].
    cbn [angs fold_right]. fold (angs horiz l (Q2R level) (Q2R t')). fold (angs horiz l (Q2R level) (Q2R t)).
    rewrite <- (IH (fun w' s Hw => HA w' s (or_intror Hw))).
    rewrite <- ang_diff; [ring|].
    destruct (Req_EM_T (Q2R level - across horiz w) 0) as [V|V]; [right|left; exact V].
    destruct (Rlt_dec 0 (Q2R t - along horiz w)) as [A|A]; [nra|].
    destruct (Rlt_dec (Q2R t' - along horiz w) 0) as [B|B]; [nra|].
    exfalso. specialize (HA w (along horiz w) (or_introl eq_refl) ltac:(lra)). rewrite V in HA. nra.
  Qed.

  Lemma count_around r : (x1 r < x2 r)%Q -> (y1 r < y2 r)%Q ->
    (forall w, In w zeros -> zin r w -> zstrict r w) ->
    fold_right (fun w s => PI / 2 * (sgn (Q2R (x2 r) - fst w) - sgn (Q2R (x1 r) - fst w)) *
                           (sgn (Q2R (y2 r) - snd w) - sgn (Q2R (y1 r) - snd w)) + s) 0 zeros
    = 2 * PI * INR (count zeros r).
  Proof.
    intros Hx Hy HB. apply Qlt_Rlt in Hx, Hy. unfold count. clear f_eq theta_lip.
    induction zeros as [|w l IH]; [cbn; ring|]. cbn [fold_right filter].
    rewrite IH by (intros w' Hw; apply HB; right; exact Hw).
    destruct (zinb r w) eqn:Z.
    - cbn [List.length]. rewrite S_INR.
      assert (I : zin r w).
      { unfold zinb in Z. apply andb_true_iff in Z as [Z1 Z2].
        destruct (between_dec (Q2R (x1 r)) (fst w) (Q2R (x2 r))); [|discriminate].
        destruct (between_dec (Q2R (y1 r)) (snd w) (Q2R (y2 r))); [|discriminate]. split; assumption. }
      destruct (HB w (or_introl eq_refl) I) as [S1 S2]. unfold sgn.
      repeat match goal with |- context [Rlt_dec ?a ?b] => destruct (Rlt_dec a b); try (exfalso; lra) end.
      lra.
    - assert (X : (sgn (Q2R (x2 r) - fst w) - sgn (Q2R (x1 r) - fst w)) *
                  (sgn (Q2R (y2 r) - snd w) - sgn (Q2R (y1 r) - snd w)) = 0).
      { unfold zinb in Z. apply andb_false_iff in Z as [Z|Z].
        - destruct (between_dec (Q2R (x1 r)) (fst w) (Q2R (x2 r))) as [N|N]; [discriminate|].
          replace (sgn (Q2R (x2 r) - fst w) - sgn (Q2R (x1 r) - fst w)) with 0; [ring|]. unfold sgn.
          repeat match goal with |- context [Rlt_dec ?a ?b] => destruct (Rlt_dec a b) end; try lra; exfalso; apply N; lra.
        - destruct (between_dec (Q2R (y1 r)) (snd w) (Q2R (y2 r))) as [N|N]; [discriminate|].
          replace (sgn (Q2R (y2 r) - snd w) - sgn (Q2R (y1 r) - snd w)) with 0; [ring|]. unfold sgn.
          repeat match goal with |- context [Rlt_dec ?a ?b] => destruct (Rlt_dec a b) end; try lra; exfalso; apply N; lra. }
      rewrite Rmult_assoc, X. ring.
  Qed.

  Lemma winding r d : (x1 r < x2 r)%Q -> (y1 r < y2 r)%Q -> 0 < d ->
    apart d true (y1 r) (x1 r) (x2 r) zeros -> apart d true (y2 r) (x1 r) (x2 r) zeros ->
    apart d false (x1 r) (y1 r) (y2 r) zeros -> apart d false (x2 r) (y1 r) (y2 r) zeros ->
    (Theta true (y1 r) (x2 r) - Theta true (y1 r) (x1 r)) + (Theta false (x2 r) (y2 r) - Theta false (x2 r) (y1 r))
    - (Theta true (y2 r) (x2 r) - Theta true (y2 r) (x1 r)) - (Theta false (x1 r) (y2 r) - Theta false (x1 r) (y1 r))
    = 2 * PI * INR (count zeros r).
  Proof.
    intros Hx Hy Hd A1 A2 A3 A4.
    rewrite <- count_around; try assumption.
    2:{ intros w Hw [I1 I2]. pose proof (Qlt_Rlt _ _ Hx) as Hx'. pose proof (Qlt_Rlt _ _ Hy) as Hy'.
        split.
        - specialize (A3 w (snd w) Hw ltac:(lra)). specialize (A4 w (snd w) Hw ltac:(lra)).
          cbn [along across] in A3, A4. rewrite Rminus_eq_0 in A3, A4.
          split; apply Rnot_le_lt; intro C.
          + assert (Q2R (x1 r) - fst w = 0) as E by lra. rewrite E in A3. nra.
          + assert (Q2R (x2 r) - fst w = 0) as E by lra. rewrite E in A4. nra.
        - specialize (A1 w (fst w) Hw ltac:(lra)). specialize (A2 w (fst w) Hw ltac:(lra)).
          cbn [along across] in A1, A2. rewrite Rminus_eq_0 in A1, A2.
          split; apply Rnot_le_lt; intro C.
          + assert (Q2R (y1 r) - snd w = 0) as E by lra. rewrite E in A1. nra.
          + assert (Q2R (y2 r) - snd w = 0) as E by lra. rewrite E in A2. nra. }
    unfold Theta. cbn [mkpoint].
    assert (Lx : (x1 r <= x2 r)%Q) by Lqa.lra. assert (Ly : (y1 r <= y2 r)%Q) by Lqa.lra.
    pose proof (angs_diff true (y1 r) (x1 r) (x2 r) d _ _ Hd A1 (Qle_refl _) Lx (Qle_refl _)) as E1.
    pose proof (angs_diff true (y2 r) (x1 r) (x2 r) d _ _ Hd A2 (Qle_refl _) Lx (Qle_refl _)) as E2.
    pose proof (angs_diff false (x1 r) (y1 r) (y2 r) d _ _ Hd A3 (Qle_refl _) Ly (Qle_refl _)) as E3.
    pose proof (angs_diff false (x2 r) (y1 r) (y2 r) d _ _ Hd A4 (Qle_refl _) Ly (Qle_refl _)) as E4.
    match goal with |- ?lhs = _ =>
      transitivity ((angs true zeros (Q2R (y1 r)) (Q2R (x2 r)) - angs true zeros (Q2R (y1 r)) (Q2R (x1 r))) +
       (angs false zeros (Q2R (x2 r)) (Q2R (y2 r)) - angs false zeros (Q2R (x2 r)) (Q2R (y1 r))) -
       (angs true zeros (Q2R (y2 r)) (Q2R (x2 r)) - angs true zeros (Q2R (y2 r)) (Q2R (x1 r))) -
       (angs false zeros (Q2R (x1 r)) (Q2R (y2 r)) - angs false zeros (Q2R (x1 r)) (Q2R (y1 r)))); [ring|] end.
    rewrite E1, E2, E3, E4. clear.
    induction zeros as [|w l IH]; [cbn; ring|]. cbn [fold_right]. rewrite <- IH.
    rewrite <- around. unfold sg. cbn [along across]. ring.
  Qed.
End Target.
