(** Euclidean distance and modulus of complex numbers. *)
From Coq Require Import Reals Psatz.
From Verif Require Import PyBase Sum_Spec Quad_Spec Moment_Spec Assoc_Spec.
Open Scope R_scope.

Definition md (z : cR) : R := apart z (0, 0).

Lemma md_sqr z : md z * md z = fst z * fst z + snd z * snd z.
Proof.
  unfold md, apart, dist_euc. cbn [fst snd]. rewrite sqrt_sqrt; [unfold Rsqr; ring|].
  pose proof (Rle_0_sqr (fst z - 0)); pose proof (Rle_0_sqr (snd z - 0)); Lra.lra.
Qed.
Lemma md_pos z : 0 <= md z.
Proof. apply sqrt_pos. Qed.
Lemma apart_md a b : apart a b = md (minus_cR a b).
Proof. unfold md, apart, dist_euc, minus_cR. cbn [fst snd]. rewrite !Rminus_0_r. reflexivity. Qed.
Lemma apart_sym a b : apart a b = apart b a.
Proof. apply distance_symm. Qed.
Lemma apart_tri a b c : apart a c <= apart a b + apart b c.
Proof. apply triangle. Qed.
Lemma apart_pos a b : 0 <= apart a b.
Proof. apply sqrt_pos. Qed.
Lemma apart_refl a : apart a a = 0.
Proof. apply distance_refl. Qed.

Lemma md_unique z m : 0 <= m -> m * m = fst z * fst z + snd z * snd z -> md z = m.
Proof.
  intros Hm H. pose proof (md_pos z). pose proof (md_sqr z).
  apply Rsqr_inj; unfold Rsqr; Lra.lra.
Qed.
Lemma md_times a b : md (times a b) = md a * md b.
Proof.
  apply md_unique; [apply Rmult_le_pos; apply md_pos|].
  replace (md a * md b * (md a * md b)) with ((md a * md a) * (md b * md b)) by ring.
  rewrite !md_sqr. unfold times. cbn [fst snd]. ring.
Qed.
Lemma md_plus a b : md (plus_cR a b) <= md a + md b.
Proof.
  pose proof (apart_tri a (0, 0) (minus_cR (0, 0) b)) as H.
  replace (apart a (minus_cR (0, 0) b)) with (md (plus_cR a b)) in H.
  - replace (apart (0, 0) (minus_cR (0, 0) b)) with (md b) in H; [exact H|].
    rewrite apart_md. f_equal. destruct b. unfold minus_cR. cbn [fst snd]. f_equal; ring.
  - rewrite apart_md. f_equal. destruct a, b. unfold minus_cR, plus_cR. cbn [fst snd]. f_equal; ring.
Qed.
Lemma md_opp a : md (minus_cR (0, 0) a) = md a.
Proof. apply md_unique; [apply md_pos|]. rewrite md_sqr. destruct a. unfold minus_cR. cbn [fst snd]. ring. Qed.
Lemma md_minus a b : md (minus_cR a b) <= md a + md b.
Proof.
  replace (minus_cR a b) with (plus_cR a (minus_cR (0, 0) b)).
  - eapply Rle_trans; [apply md_plus|]. rewrite md_opp. Lra.lra.
  - destruct a, b. unfold minus_cR, plus_cR. cbn [fst snd]. f_equal; ring.
Qed.
Lemma md_0 : md (0, 0) = 0.
Proof. apply md_unique; cbn [fst snd]; Lra.lra. Qed.
Lemma md_1 : md (1, 0) = 1.
Proof. apply md_unique; cbn [fst snd]; Lra.lra. Qed.
Lemma md_re z : Rabs (fst z) <= md z.
Proof.
  pose proof (md_pos z). pose proof (md_sqr z).
  rewrite <- (Rabs_right (md z)) by Lra.lra. apply Rsqr_le_abs_0. unfold Rsqr. pose proof (Rle_0_sqr (snd z)). unfold Rsqr in *. Lra.lra.
Qed.
Lemma md_im z : Rabs (snd z) <= md z.
Proof.
  pose proof (md_pos z). pose proof (md_sqr z).
  rewrite <- (Rabs_right (md z)) by Lra.lra. apply Rsqr_le_abs_0. unfold Rsqr. pose proof (Rle_0_sqr (fst z)). unfold Rsqr in *. Lra.lra.
Qed.
Lemma md_sum z : md z <= Rabs (fst z) + Rabs (snd z).
Proof.
  pose proof (md_pos z). pose proof (md_sqr z). pose proof (Rabs_pos (fst z)). pose proof (Rabs_pos (snd z)).
  apply Rsqr_incr_0; [unfold Rsqr|Lra.lra|Lra.lra].
  replace (md z * md z) with (Rabs (fst z) * Rabs (fst z) + Rabs (snd z) * Rabs (snd z)); [Lra.nra|].
  rewrite <- !Rabs_mult. rewrite H0. rewrite !Rabs_right; [reflexivity| |]; apply Rle_ge, Rle_0_sqr.
Qed.
Lemma apart_re a b : Rabs (fst a - fst b) <= apart a b.
Proof. rewrite apart_md. apply (md_re (minus_cR a b)). Qed.
Lemma apart_im a b : Rabs (snd a - snd b) <= apart a b.
Proof. rewrite apart_md. apply (md_im (minus_cR a b)). Qed.
Lemma md_scale r z : 0 <= r -> md (r * fst z, r * snd z) = r * md z.
Proof.
  intro Hr. apply md_unique; [apply Rmult_le_pos; [exact Hr|apply md_pos]|]. cbn [fst snd].
  replace (r * md z * (r * md z)) with (r * r * (md z * md z)) by ring. rewrite md_sqr. ring.
Qed.
Lemma md_zero z : md z = 0 -> z = (0, 0).
Proof.
  intro H. pose proof (md_re z). pose proof (md_im z). rewrite H in *.
  destruct z as [x y]. cbn [fst snd] in *.
  pose proof (Rabs_pos x). pose proof (Rabs_pos y).
  f_equal; [destruct (Req_dec x 0) as [E|N]|destruct (Req_dec y 0) as [E|N]]; try exact E;
    apply Rabs_pos_lt in N; Lra.lra.
Qed.
