From Coq Require Import Reals Qreals Qminmax Permutation Lqa Lra.
From Verif Require Import PyBase Rounding_Model Rounding_Spec Rounding_Proofs Container_Model Container_Spec
  Container_Proofs Finder_Model Finder_Spec Finder_Proofs Refine_Model Refine_Spec Refine_Proofs2 Zeros_Spec
  Grid_Model Grid_Spec Grid_Proofs EndToEnd_Model EndToEnd_Spec EndToEnd_Proofs GridEnd_Model GridEnd_Spec GridEnd_Proofs.
Open Scope R_scope.

Lemma Rabs_le_both a b : Rabs a <= b -> - b <= a <= b.
Proof. intro H. split; [|eapply Rle_trans; [apply Rle_abs|exact H]]. pose proof (Rle_abs (- a)) as G. rewrite Rabs_Ropp in G. Lra.lra. Qed.

Lemma Q2R_of_nat n : Q2R (inject_Z (Z.of_nat n)) = INR n.
Proof. rewrite Q2R_Z. symmetry. apply INR_IZR_INZ. Qed.

Lemma Q2R_grid a b n i : (1 <= n)%nat ->
  Q2R (a + inject_Z (Z.of_nat i) * ((b - a) / inject_Z (Z.of_nat n))) =
  Q2R a + INR i * ((Q2R b - Q2R a) / INR n).
Proof.
  intro H. rewrite Q2R_plus, Q2R_mult, Q2R_div, Q2R_minus, !Q2R_of_nat; [reflexivity|].
  intro C. change 0%Q with (inject_Z 0) in C. apply (proj1 (inject_Z_injective _ _)) in C. lia.
Qed.

(** The nearest of n + 1 evenly spaced points. *)
Lemma nearest_point A B n z : (1 <= n)%nat -> A <= z <= B ->
  exists i, (i <= n)%nat /\ Rabs (z - (A + INR i * ((B - A) / INR n))) <= (B - A) / (2 * INR n).
Proof.
  intros Hn Hz. assert (HN : 0 < INR n) by (apply lt_0_INR; lia).
  set (s := (B - A) / INR n). replace ((B - A) / (2 * INR n)) with (s / 2) by (unfold s; field; Lra.lra).
  assert (S0 : 0 <= s) by (apply Rmult_le_pos; [Lra.lra|left; apply Rinv_0_lt_compat, HN]).
  assert (E : INR n * s = B - A) by (unfold s; field; Lra.lra).
  assert (G : forall k, (k <= n)%nat -> z <= A + INR k * s + s / 2 ->
            exists i, (i <= n)%nat /\ Rabs (z - (A + INR i * s)) <= s / 2).
  { induction k as [|k IH]; intros Hk H.
    - exists 0%nat. split; [lia|]. cbn [INR] in *. apply Rabs_le. Lra.lra.
    - destruct (Rle_dec z (A + INR k * s + s / 2)) as [C|C]; [apply IH; [lia|exact C]|].
      exists (S k). split; [exact Hk|]. rewrite S_INR in *. apply Rabs_le. Lra.lra. }
  apply (G n); [lia|]. Lra.lra.
Qed.

Lemma rounds_half p x y : rounds_to p x y -> Rabs (Q2R x - Q2R y) <= half_unit p.
Proof.
  intro H. apply rounds_to_iff in H. subst y. unfold half_unit.
  pose proof (round_dec_error p x) as E. apply Qle_Rle in E.
  rewrite Q2R_mult, Q2R_half_1 in E. rewrite <- Q2R_minus.
  replace (Rabs (Q2R (x - round_dec p x))) with (Q2R (Qabs (x - round_dec p x))); [Lra.lra|].
  apply Qabs_case; intro L; apply Qle_Rle in L; rewrite RMicromega.Q2R_0 in L.
  - rewrite Rabs_pos_eq; Lra.lra.
  - rewrite Q2R_opp. rewrite Rabs_left1; Lra.lra.
Qed.

Lemma rounded_off P ex ey e z pr : rounded P (e, 0%Z) pr -> off ex ey e z ->
  snd pr = 0%Z /\ off (ex + half_unit (fst P)) (ey + half_unit (snd P)) (fst pr) z.
Proof.
  intros (R1 & R2 & R3) [O1 O2]. split; [exact R3|]. cbn [fst snd] in *.
  apply rounds_half in R1. apply rounds_half in R2. split.
  - replace (fst z - Q2R (re (fst pr))) with ((fst z - Q2R (re e)) + (Q2R (re e) - Q2R (re (fst pr)))) by ring.
    eapply Rle_trans; [apply Rabs_triang|]. Lra.lra.
  - replace (snd z - Q2R (im (fst pr))) with ((snd z - Q2R (im e)) + (Q2R (im e) - Q2R (im (fst pr)))) by ring.
    eapply Rle_trans; [apply Rabs_triang|]. Lra.lra.
Qed.

(** Values near a number that is clear of ties are rounded alike. *)
Lemma same_rounding p ex v q1 q2 y1 y2 : clear_of_ties p ex v ->
  Rabs (v - Q2R q1) <= ex -> Rabs (v - Q2R q2) <= ex ->
  rounds_to p q1 y1 -> rounds_to p q2 y2 -> y1 = y2.
Proof.
  assert (W : forall q1 q2 y1 y2, clear_of_ties p ex v ->
    Rabs (v - Q2R q1) <= ex -> Rabs (v - Q2R q2) <= ex ->
    rounds_to p q1 y1 -> rounds_to p q2 y2 -> (y2 <= y1)%Q).
  { clear. intros q1 q2 y1 y2 CT H1 H2 R1 R2.
    pose proof (rounds_half _ _ _ R1) as E1. pose proof (rounds_half _ _ _ R2) as E2.
    destruct R1 as (_ & k1 & K1 & _). destruct R2 as (_ & k2 & K2 & _).
    apply Qeq_eqR in K1. apply Qeq_eqR in K2. rewrite Q2R_mult, Q2R_Z in K1, K2.
    pose proof (Q2R_pow10_pos (- p)) as U. unfold half_unit in *. set (u := Q2R (pow10 (- p))) in *.
    destruct (Z_le_gt_dec k2 k1) as [L|L].
    - apply Rle_Qle. rewrite K1, K2. apply Rmult_le_compat_r; [Lra.lra|]. apply IZR_le, L.
    - exfalso. specialize (CT k1). fold u in CT.
      assert (D : IZR k1 + 1 <= IZR k2) by (rewrite <- plus_IZR; apply IZR_le; lia).
      assert (D' : (IZR k1 + / 2) * u <= IZR k2 * u - u / 2) by Lra.nra.
      apply Rabs_le_both in H1. apply Rabs_le_both in H2. apply Rabs_le_both in E1. apply Rabs_le_both in E2.
      rewrite K1 in E1. rewrite K2 in E2.
      apply (Rlt_irrefl ex). eapply Rlt_le_trans; [exact CT|]. apply Rabs_le. Lra.lra. }
  intros CT H1 H2 R1 R2.
  pose proof (W q1 q2 y1 y2 CT H1 H2 R1 R2) as L1. pose proof (W q2 q1 y2 y1 CT H2 H1 R2 R1) as L2.
  destruct R1 as (C1 & _). destruct R2 as (C2 & _).
  rewrite <- C1, <- C2. apply Qred_complete. apply Qle_antisym; assumption.
Qed.

(** A start point near every point of the domain. *)
Lemma grid_near m re' im' starts (z : point) : (2 <= m)%nat -> start_grid m re' im' starts ->
  Q2R (fst re') <= fst z <= Q2R (snd re') -> Q2R (fst im') <= snd z <= Q2R (snd im') ->
  exists k s, nth_error starts k = Some s /\
    off ((Q2R (snd re') - Q2R (fst re')) / (2 * INR (m - 1)))
        ((Q2R (snd im') - Q2R (fst im')) / (2 * INR (m - 1))) s z.
Proof.
  intros Hm [_ G] H1 H2.
  destruct (nearest_point _ _ (m - 1) _ ltac:(lia) H1) as (i & Hi & I1).
  destruct (nearest_point _ _ (m - 1) _ ltac:(lia) H2) as (j & Hj & J1).
  destruct (G i j ltac:(lia) ltac:(lia)) as (s & S1 & [S2 S3]).
  exists (i * m + j)%nat, s. split; [exact S1|].
  apply Qeq_eqR in S2. apply Qeq_eqR in S3. cbn [re im fst snd] in S2, S3.
  rewrite Q2R_grid in S2, S3 by lia. unfold off. rewrite S2, S3. split; assumption.
Qed.

Lemma enlarged_R reRan imRan P re' im' : enlarged reRan imRan P re' im' ->
  Q2R (snd re') - Q2R (fst re') = domain_width reRan P /\
  Q2R (snd im') - Q2R (fst im') = domain_height imRan P /\
  forall z, requested reRan imRan z ->
    Q2R (fst re') <= fst z <= Q2R (snd re') /\ Q2R (fst im') <= snd z <= Q2R (snd im').
Proof.
  intros (E1 & E2 & E3 & E4). apply Qeq_eqR in E1. apply Qeq_eqR in E2. apply Qeq_eqR in E3. apply Qeq_eqR in E4.
  rewrite Q2R_minus in E1. rewrite Q2R_plus, Q2R_mult in E2. rewrite Q2R_minus, Q2R_mult in E3.
  rewrite Q2R_plus, Q2R_mult in E4.
  change 2%Q with (inject_Z 2) in E2. change 3%Q with (inject_Z 3) in E3. change 4%Q with (inject_Z 4) in E4.
  rewrite Q2R_Z in E2, E3, E4. unfold domain_width, domain_height. rewrite E1, E2, E3, E4.
  pose proof (Q2R_pow10_pos (- fst P)). pose proof (Q2R_pow10_pos (- snd P)).
  split; [ring|]. split; [ring|]. intros z [Z1 Z2]. split; Lra.lra.
Qed.
