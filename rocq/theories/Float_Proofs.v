(** binary64 rounding on rationals agrees with Flocq's. *)
From Coq Require Import Reals Qreals.
From Flocq Require Import Core.
From Verif Require Import PyBase Rounding_Model Rounding_Proofs Float_Model Float_Spec.
From Coq Require Import Lra.
Open Scope R_scope.

Lemma Q2R_Z z : Q2R (inject_Z z) = IZR z.
Proof. unfold Q2R, inject_Z. cbn. rewrite Rinv_1. ring. Qed.

Lemma Q2R_pow2 e : Q2R (pow2 e) = bpow radix2 e.
Proof.
  unfold pow2. destruct (Z.leb_spec 0 e) as [H|H].
  - rewrite Q2R_Z, <- IZR_Zpower by exact H. reflexivity.
  - unfold Q2R. cbn [Qnum Qden]. rewrite Z2Pos.id by (apply Z.pow_pos_nonneg; lia).
    replace e with (- (- e))%Z at 2 by lia. rewrite bpow_opp, <- IZR_Zpower by lia.
    cbn. ring.
Qed.

Lemma pow2_pos e : (0 < pow2 e)%Q.
Proof.
  apply Rlt_Qlt. rewrite Q2R_pow2. unfold Q2R. cbn. rewrite Rmult_0_l. apply bpow_gt_0.
Qed.

Lemma Q2R_abs q : Q2R (Qabs q) = Rabs (Q2R q).
Proof.
  destruct (Qlt_le_dec q 0) as [H|H].
  - rewrite (Qeq_eqR _ _ (Qabs_neg q ltac:(apply Qlt_le_weak; exact H))).
    rewrite Q2R_opp, Rabs_left1; [reflexivity|]. apply Qlt_Rlt in H. rewrite RMicromega.Q2R_0 in H. lra.
  - rewrite (Qeq_eqR _ _ (Qabs_pos q H)). rewrite Rabs_pos_eq; [reflexivity|].
    apply Qle_Rle in H. rewrite RMicromega.Q2R_0 in H. exact H.
Qed.

Lemma log2_bounds n : (0 < n)%Z -> bpow radix2 (Z.log2 n) <= IZR n < bpow radix2 (Z.log2 n + 1).
Proof.
  intro H. pose proof (Z.log2_nonneg n). destruct (Z.log2_spec n H) as [A B]. unfold Z.succ in B.
  rewrite <- !IZR_Zpower by lia. split; [apply IZR_le|apply IZR_lt]; assumption.
Qed.

Lemma magnitude_spec q : ~ (q == 0)%Q ->
  bpow radix2 (magnitude q - 1) <= Rabs (Q2R q) < bpow radix2 (magnitude q).
Proof.
  intro Hq.
  assert (Hn : (0 < Z.abs (Qnum q))%Z).
  { destruct (Z.eq_dec (Qnum q) 0) as [E|E]; [|lia]. exfalso. apply Hq. unfold Qeq. rewrite E. reflexivity. }
  unfold magnitude.
  set (a := Z.log2 (Z.abs (Qnum q))). set (b := Z.log2 (Zpos (Qden q))).
  pose proof (log2_bounds _ Hn) as [A1 A2]. fold a in A1, A2.
  pose proof (log2_bounds (Zpos (Qden q)) ltac:(lia)) as [B1 B2]. fold b in B1, B2.
  assert (AB : Rabs (Q2R q) = IZR (Z.abs (Qnum q)) / IZR (Zpos (Qden q))).
  { unfold Q2R. rewrite Rabs_mult, Rabs_inv, <- !abs_IZR. reflexivity. }
  assert (Pd : 0 < IZR (Zpos (Qden q))) by (apply IZR_lt; lia).
  assert (U : Rabs (Q2R q) < bpow radix2 (a - b + 1)).
  { rewrite AB. apply Rmult_lt_reg_r with (IZR (Zpos (Qden q))); [exact Pd|].
    unfold Rdiv. rewrite Rmult_assoc, Rinv_l, Rmult_1_r by lra.
    apply Rlt_le_trans with (1 := A2). replace (a + 1)%Z with ((a - b + 1) + b)%Z by lia.
    rewrite bpow_plus. apply Rmult_le_compat_l; [apply bpow_ge_0|exact B1]. }
  assert (L : bpow radix2 (a - b - 1) <= Rabs (Q2R q)).
  { rewrite AB. apply Rmult_le_reg_r with (IZR (Zpos (Qden q))); [exact Pd|].
    unfold Rdiv. rewrite Rmult_assoc, Rinv_l, Rmult_1_r by lra.
    apply Rle_trans with (2 := A1). replace a with ((a - b - 1) + (b + 1))%Z at 2 by lia.
    rewrite bpow_plus. apply Rmult_le_compat_l; [apply bpow_ge_0|]. apply Rlt_le, B2. }
  destruct (Qle_bool (pow2 (a - b)) (Qabs q)) eqn:E.
  - apply Qle_bool_iff, Qle_Rle in E. rewrite Q2R_pow2, Q2R_abs in E.
    split; [|exact U]. replace (a - b + 1 - 1)%Z with (a - b)%Z by lia. exact E.
  - split; [exact L|]. rewrite <- Q2R_pow2, <- Q2R_abs. apply Qlt_Rlt.
    apply Qnot_le_lt. intro C. apply Qle_bool_iff in C. congruence.
Qed.

Lemma Zfloor_Q q : Zfloor (Q2R q) = Qfloor q.
Proof.
  apply Zfloor_imp. split.
  - rewrite <- Q2R_Z. apply Qle_Rle, Qfloor_le.
  - rewrite <- Q2R_Z. apply Qlt_Rlt. apply Qlt_floor.
Qed.

Lemma Znearest_Q q : ZnearestE (Q2R q) = round_half_even q.
Proof.
  unfold Znearest, round_half_even. rewrite Zfloor_Q.
  set (n := Qfloor q).
  assert (D : Q2R q - IZR n = Q2R (q - inject_Z n)) by (rewrite Q2R_minus, Q2R_Z; reflexivity).
  rewrite D.
  assert (C : IZR n <> Q2R q -> Zceil (Q2R q) = (n + 1)%Z).
  { intro N. unfold n in *. rewrite <- Zfloor_Q in *. apply Zceil_floor_neq. exact N. }
  assert (H2 : (/ 2) = Q2R (1 # 2)) by (unfold Q2R; cbn; field). rewrite H2.
  destruct (Rcompare_spec (Q2R (q - inject_Z n)) (Q2R (1 # 2))) as [H|H|H].
  - apply Rlt_Qlt in H. destruct (Qltb_spec (q - inject_Z n) (1 # 2)) as [K|K]; [reflexivity|].
    exfalso. apply (Qlt_not_le _ _ H K).
  - apply eqR_Qeq in H.
    destruct (Qltb_spec (q - inject_Z n) (1 # 2)) as [K|K]; [exfalso; rewrite H in K; discriminate K|].
    destruct (Qltb_spec (1 # 2) (q - inject_Z n)) as [K'|K']; [exfalso; rewrite H in K'; discriminate K'|].
    destruct (Z.even n); cbn [negb]; [reflexivity|]. apply C. intro X.
    apply Qeq_eqR in H. rewrite <- D, X in H. rewrite <- H2 in H. lra.
  - apply Rlt_Qlt in H.
    destruct (Qltb_spec (q - inject_Z n) (1 # 2)) as [K|K]; [exfalso; apply (Qlt_irrefl (1 # 2)); apply Qlt_trans with (1 := H); exact K|].
    destruct (Qltb_spec (1 # 2) (q - inject_Z n)) as [K'|K']; [|exfalso; apply (Qlt_not_le _ _ H K')].
    apply C. intro X. apply Qlt_Rlt in H. rewrite <- D, X, <- H2 in H. lra.
Qed.

Notation fexp64 := (FLT_exp (-1074) 53).
Notation round64 := (round radix2 fexp64 ZnearestE).

Lemma rnd64_flocq q : Q2R (rnd64 q) = round64 (Q2R q).
Proof.
  unfold rnd64. destruct (Qeq_bool q 0) eqn:Z0.
  - apply Qeq_bool_iff, Qeq_eqR in Z0. rewrite Z0, RMicromega.Q2R_0, round_0; [reflexivity|].
    apply valid_rnd_N.
  - assert (Hq : ~ (q == 0)%Q) by (intro C; apply Qeq_bool_iff in C; congruence).
    pose proof (magnitude_spec q Hq) as HM.
    assert (M : mag radix2 (Q2R q) = magnitude q :> Z) by (apply mag_unique; exact HM).
    cbv zeta. rewrite (Qeq_eqR _ _ (Qred_correct _)), Q2R_mult, Q2R_Z, Q2R_pow2.
    unfold round, F2R, scaled_mantissa, cexp. cbn [Fnum Fexp]. rewrite M. unfold FLT_exp.
    rewrite <- Q2R_pow2 with (e := (- Z.max (magnitude q - 53) (-1074))%Z).
    rewrite <- Q2R_mult, Znearest_Q. reflexivity.
Qed.

Local Instance valid64 : Valid_exp fexp64.
Proof. apply FLT_exp_valid. unfold Prec_gt_0. lia. Qed.
Local Instance mono64 : Monotone_exp fexp64.
Proof. apply FLT_exp_monotone. Qed.

Notation gf64 := (generic_format radix2 fexp64).

Lemma representable64 x : representable rnd64 x <-> gf64 (Q2R x).
Proof.
  unfold representable. split; intro H.
  - apply Qeq_eqR in H. rewrite rnd64_flocq in H. rewrite <- H.
    apply generic_format_round; [exact valid64|apply valid_rnd_N].
  - apply eqR_Qeq. rewrite rnd64_flocq. apply round_generic; [apply valid_rnd_N|exact H].
Qed.

Lemma rnd64_mono x y : (x <= y -> rnd64 x <= rnd64 y)%Q.
Proof.
  intro H. apply Rle_Qle. rewrite !rnd64_flocq.
  apply round_le; [exact valid64|apply valid_rnd_N|apply Qle_Rle, H].
Qed.

Lemma double64 x : gf64 x -> gf64 (2 * x).
Proof.
  intro H. assert (P : Prec_gt_0 53) by (unfold Prec_gt_0; lia).
  apply FLT_format_generic in H; [|exact P].
  destruct H as [f E1 E2 E3]. apply generic_format_FLT.
  exists (Float radix2 (Fnum f) (Fexp f + 1)).
  - rewrite E1. unfold F2R. cbn [Fnum Fexp]. rewrite bpow_plus.
    change (bpow radix2 1) with 2. ring.
  - exact E2.
  - cbn [Fexp]. lia.
Qed.

Lemma pow2_gf64 e : (-1074 <= e)%Z -> gf64 (bpow radix2 e).
Proof.
  intro H. apply generic_format_bpow. unfold FLT_exp. lia.
Qed.

Lemma rounding64 : rounding rnd64.
Proof.
  constructor.
  - exact rnd64_mono.
  - intro x. apply representable64. rewrite rnd64_flocq.
    apply generic_format_round; [exact valid64|apply valid_rnd_N].
  - intros x H. apply representable64. rewrite Q2R_mult. apply representable64 in H.
    replace (Q2R 2) with 2 by (unfold Q2R; cbn; field). apply double64, H.
  - reflexivity.
  - reflexivity.
  - reflexivity.
Qed.

Lemma Q2R_two_pow k : Q2R (2 * pow2 k) = bpow radix2 (k + 1).
Proof.
  rewrite Q2R_mult, Q2R_pow2, bpow_plus. change (bpow radix2 1) with 2.
  unfold Q2R. cbn. field.
Qed.

Lemma accurate64 k : (-1022 <= k)%Z -> accurate rnd64 (pow2 k) (pow2 (k - 53)).
Proof.
  intros Hk x Hx. apply Qle_Rle in Hx. rewrite Q2R_abs, Q2R_two_pow in Hx.
  apply Rle_Qle. rewrite Q2R_abs, Q2R_minus, Q2R_pow2, rnd64_flocq.
  destruct (Rle_lt_or_eq_dec _ _ Hx) as [Hlt|Heq].
  - destruct (Req_dec (Q2R x) 0) as [Z|NZ].
    { rewrite Z, round_0 by apply valid_rnd_N. rewrite Rminus_0_r, Rabs_R0. apply bpow_ge_0. }
    eapply Rle_trans; [apply error_le_half_ulp; exact valid64|].
    rewrite ulp_neq_0 by exact NZ.
    assert (M : (mag radix2 (Q2R x) <= k + 1)%Z) by (apply mag_le_bpow; assumption).
    assert (C : (cexp radix2 fexp64 (Q2R x) <= k - 52)%Z).
    { unfold cexp, FLT_exp. lia. }
    apply (bpow_le radix2) in C.
    replace (k - 52)%Z with (k - 53 + 1)%Z in C by lia. rewrite bpow_plus in C.
    change (bpow radix2 1) with 2 in C. lra.
  - assert (G : gf64 (Q2R x)).
    { assert (G : gf64 (bpow radix2 (k + 1))) by (apply pow2_gf64; lia).
      rewrite <- Heq in G. destruct (Rcase_abs (Q2R x)) as [N|N].
      - rewrite Rabs_left in G by exact N. apply generic_format_opp in G.
        rewrite Ropp_involutive in G. exact G.
      - rewrite Rabs_right in G by exact N. exact G. }
    rewrite round_generic; [|apply valid_rnd_N|exact G].
    rewrite Rminus_diag_eq by reflexivity. rewrite Rabs_R0. apply bpow_ge_0.
Qed.
