(** Coefficients computed from approximate power sums. *)
From Coq Require Import Permutation Reals Psatz Qreals.
From Verif Require Import PyBase Zeros_Spec Sum_Spec Quad_Spec Moment_Spec Assoc_Spec Modulus Assoc_Perturb Poly_Model.
Open Scope R_scope.

Lemma rp_add a b : real_point (cadd a b) = plus_cR (real_point a) (real_point b).
Proof. unfold real_point, cadd, plus_cR, re, im. cbn [fst snd]. rewrite !Q2R_plus. reflexivity. Qed.
Lemma rp_mul a b : real_point (cmul a b) = times (real_point a) (real_point b).
Proof. unfold real_point, cmul, times, re, im. cbn [fst snd]. rewrite Q2R_minus, Q2R_plus, !Q2R_mult. reflexivity. Qed.
Lemma rp_opp a : real_point (copp a) = minus_cR (0, 0) (real_point a).
Proof. unfold real_point, copp, minus_cR, re, im. cbn [fst snd]. rewrite !Q2R_opp. f_equal; ring. Qed.
Lemma rp_0 : real_point c0 = (0, 0).
Proof. unfold real_point, c0, re, im, Q2R. cbn. f_equal; Lra.lra. Qed.
Lemma rp_1 : real_point c1 = (1, 0).
Proof. unfold real_point, c1, re, im, Q2R. cbn. f_equal; Lra.lra. Qed.
Definition scale (r : R) (z : cR) : cR := times (r, 0) z.
Lemma rp_div a n : (1 <= n)%nat -> real_point (cdivn a n) = scale (/ INR n) (real_point a).
Proof.
  intro Hn. unfold real_point, cdivn, scale, times, re, im, Qdiv. cbn [fst snd].
  assert (X : Q2R (/ inject_Z (Z.of_nat n)) = / INR n).
  { rewrite Q2R_inv.
    - f_equal. unfold inject_Z, Q2R. cbn [Qnum Qden]. rewrite INR_IZR_INZ. field.
    - unfold Qeq, inject_Z. cbn. lia. }
  rewrite !Q2R_mult, X. f_equal; ring.
Qed.
Lemma md_scaled r z : 0 <= r -> md (scale r z) = r * md z.
Proof.
  intro H. rewrite <- md_scale by exact H. f_equal. unfold scale, times. cbn [fst snd]. f_equal; ring.
Qed.

Section Errors.
  Variables (B d : R) (m1 m2 m3 p1 p2 p3 : cR).
  Hypothesis HB : 1 <= B.
  Hypothesis Hd : 0 <= d <= 1.
  Hypothesis D1 : md (minus_cR m1 p1) <= d.
  Hypothesis D2 : md (minus_cR m2 p2) <= d.
  Hypothesis D3 : md (minus_cR m3 p3) <= d.
  Hypothesis P1 : md p1 <= 3 * B.
  Hypothesis P2 : md p2 <= 3 * B ^ 2.
  Let E2 (x y : cR) := scale (/ 2) (minus_cR (times x x) y).
  Let E3 (x y z : cR) := scale (/ 3) (plus_cR (minus_cR (times (E2 x y) x) (times x y)) z).

  Lemma md_m1 : md m1 <= 4 * B.
  Proof.
    replace m1 with (plus_cR p1 (minus_cR m1 p1)) by cring. eapply Rle_trans; [apply md_plus|]. Lra.lra.
  Qed.
  Lemma md_m2 : md m2 <= 4 * B ^ 2.
  Proof.
    replace m2 with (plus_cR p2 (minus_cR m2 p2)) by cring. eapply Rle_trans; [apply md_plus|]. Lra.nra.
  Qed.
  Lemma e2_err : md (minus_cR (E2 m1 m2) (E2 p1 p2)) <= 4 * B * d.
  Proof.
    replace (minus_cR (E2 m1 m2) (E2 p1 p2)) with
      (scale (/ 2) (minus_cR (times (minus_cR m1 p1) (plus_cR m1 p1)) (minus_cR m2 p2))) by (unfold E2, scale; cring).
    rewrite md_scaled by Lra.lra.
    pose proof (md_minus (times (minus_cR m1 p1) (plus_cR m1 p1)) (minus_cR m2 p2)) as T. rewrite md_times in T.
    pose proof (md_plus m1 p1) as T2. pose proof md_m1.
    assert (md (minus_cR m1 p1) * md (plus_cR m1 p1) <= d * (7 * B)).
    { apply Rmult_le_compat; [apply md_pos|apply md_pos|exact D1|Lra.lra]. }
    assert (d * 1 <= d * B) by (apply Rmult_le_compat_l; Lra.lra). Lra.lra.
  Qed.
  Hypothesis P3 : md (E2 p1 p2) <= 3 * B ^ 2.
  Lemma e3_err : md (minus_cR (E3 m1 m2 m3) (E3 p1 p2 p3)) <= 9 * B ^ 2 * d.
  Proof.
    set (u := E2 m1 m2) in *. set (v := E2 p1 p2) in *. pose proof e2_err as E. fold u v in E.
    replace (minus_cR (E3 m1 m2 m3) (E3 p1 p2 p3)) with
      (scale (/ 3) (plus_cR (minus_cR (plus_cR (times (minus_cR u v) m1) (times v (minus_cR m1 p1)))
         (plus_cR (times (minus_cR m1 p1) m2) (times p1 (minus_cR m2 p2)))) (minus_cR m3 p3)))
      by (unfold E3; fold u v; unfold scale; cring).
    clearbody u v. rewrite md_scaled by Lra.lra.
    set (A1 := times (minus_cR u v) m1). set (A2 := times v (minus_cR m1 p1)).
    set (A3 := times (minus_cR m1 p1) m2). set (A4 := times p1 (minus_cR m2 p2)).
    assert (B1 : md A1 <= (4 * B * d) * (4 * B)).
    { unfold A1. rewrite md_times. apply Rmult_le_compat; [apply md_pos|apply md_pos|exact E|apply md_m1]. }
    assert (B2 : md A2 <= (3 * B ^ 2) * d).
    { unfold A2. rewrite md_times. apply Rmult_le_compat; [apply md_pos|apply md_pos|exact P3|exact D1]. }
    assert (B3 : md A3 <= d * (4 * B ^ 2)).
    { unfold A3. rewrite md_times. apply Rmult_le_compat; [apply md_pos|apply md_pos|exact D1|apply md_m2]. }
    assert (B4 : md A4 <= (3 * B) * d).
    { unfold A4. rewrite md_times. apply Rmult_le_compat; [apply md_pos|apply md_pos|exact P1|exact D2]. }
    pose proof (md_plus (minus_cR (plus_cR A1 A2) (plus_cR A3 A4)) (minus_cR m3 p3)) as T1.
    pose proof (md_minus (plus_cR A1 A2) (plus_cR A3 A4)) as T2.
    pose proof (md_plus A1 A2) as T3. pose proof (md_plus A3 A4) as T4.
    assert (d * B <= d * B ^ 2) by (apply Rmult_le_compat_l; [Lra.lra|Lra.nra]).
    assert (d * 1 <= d * B ^ 2) by (apply Rmult_le_compat_l; [Lra.lra|Lra.nra]). Lra.lra.
  Qed.
End Errors.

Definition E2 (x y : cR) := scale (/ 2) (minus_cR (times x x) y).
Definition E3 (x y z : cR) := scale (/ 3) (plus_cR (minus_cR (times (E2 x y) x) (times x y)) z).

Definition power_sum_of (zs : list point) (k : nat) : cR := csum (map (fun w => power w k) zs).

Lemma md_power z k B : md z <= B -> 0 <= B -> md (power z k) <= B ^ k.
Proof.
  intros H HB. induction k as [|k IH].
  { change (power z 0) with ((1, 0) : cR). rewrite md_1. cbn. Lra.lra. }
  change (power z (S k)) with (times z (power z k)). rewrite md_times. cbn [pow]. apply Rmult_le_compat; [apply md_pos|apply md_pos|exact H|exact IH].
Qed.
Lemma power_sum_upper zs k B : 0 <= B -> (forall z, In z zs -> md z <= B) -> (List.length zs <= 3)%nat -> md (power_sum_of zs k) <= 3 * B ^ k.
Proof.
  intros HB H Hl. pose proof (pow_le B k HB) as HP.
  assert (X : md (power_sum_of zs k) <= INR (List.length zs) * B ^ k).
  { clear Hl. induction zs as [|z zs IH]; cbn [power_sum_of map csum fold_right List.length].
    - rewrite md_0. cbn. Lra.lra.
    - rewrite S_INR. eapply Rle_trans; [apply md_plus|].
      pose proof (md_power z k B (H z (or_introl eq_refl)) HB).
      assert (md (fold_right plus_cR (0, 0) (map (fun w => power w k) zs)) <= INR (List.length zs) * B ^ k).
      { apply IH. intros; apply H; right; assumption. } Lra.lra. }
  apply le_INR in Hl. cbn in Hl. replace (1 + 1 + 1) with 3 in Hl by ring.
  eapply Rle_trans; [exact X|]. apply Rmult_le_compat_r; assumption.
Qed.

Ltac coords := repeat match goal with p : point |- _ => destruct p as [? ?] | p : cR |- _ => destruct p as [? ?] end;
  apply injective_projections; cbn; field.
Lemma exact2_2 (a b : point) : E2 (power_sum_of [a; b] 1) (power_sum_of [a; b] 2) = times a b.
Proof. unfold E2, scale, power_sum_of. coords. Qed.
Lemma exact2_3 (a b c : point) : E2 (power_sum_of [a; b; c] 1) (power_sum_of [a; b; c] 2) = plus_cR (times a b) (plus_cR (times a c) (times b c)).
Proof. unfold E2, scale, power_sum_of. coords. Qed.
Lemma exact3_3 (a b c : point) : E3 (power_sum_of [a; b; c] 1) (power_sum_of [a; b; c] 2) (power_sum_of [a; b; c] 3) = times a (times b c).
Proof. unfold E3. rewrite exact2_3. unfold scale, power_sum_of. coords. Qed.

(** The coefficients the program computes from moments of order 1 .. n. *)
Lemma computed_coefficients B d zs ms : 1 <= B -> 0 <= d -> ((2 <= List.length zs)%nat -> d <= 1 /\ forall z, In z zs -> md z <= B) ->
  (1 <= List.length zs <= 3)%nat -> List.length ms = List.length zs ->
  (forall k, (1 <= k <= List.length zs)%nat -> apart (real_point (nth (k - 1) ms c0)) (power_sum_of zs k) <= d) ->
  close (coefficient_error B d (List.length zs)) (coefficients_cplx ms) (coefficients_of zs).
Proof.
  intros HB Hd Hbig Hlen Hm HA.
  assert (Bd : d * 1 <= d * B) by (apply Rmult_le_compat_l; Lra.lra).
  assert (BBd : d * B <= d * B ^ 2) by (apply Rmult_le_compat_l; [Lra.lra|Lra.nra]).
  assert (D1 : d <= coefficient_error B d (List.length zs)) by (destruct zs as [|a [|b [|c l]]]; cbn [List.length coefficient_error]; Lra.lra).
  assert (D2 : (2 <= List.length zs)%nat -> 4 * B * d <= coefficient_error B d (List.length zs))
    by (destruct zs as [|a [|b [|c l]]]; cbn [List.length coefficient_error]; intros; try lia; Lra.lra).
  assert (D3 : 9 * B ^ 2 * d <= coefficient_error B d 3) by (cbn [coefficient_error]; Lra.lra).
  assert (D0 : 0 <= coefficient_error B d (List.length zs)) by Lra.lra.
  assert (U : (2 <= List.length zs)%nat -> 0 <= d <= 1 /\ (forall z, In z zs -> md z <= B) /\ forall k, md (power_sum_of zs k) <= 3 * B ^ k).
  { intro H2. destruct (Hbig H2) as [H3 Hzs]. split; [Lra.lra|]. split; [exact Hzs|]. intro k; apply power_sum_upper; [Lra.lra|exact Hzs|lia]. }
  assert (A : forall k, (1 <= k <= List.length zs)%nat -> md (minus_cR (real_point (nth (k - 1) ms c0)) (power_sum_of zs k)) <= d)
    by (intros k Hk; rewrite <- apart_md; apply HA, Hk). clear HA.
  assert (Z : forall x y : cR, x = y -> apart x y <= coefficient_error B d (List.length zs)) by (intros x y ->; rewrite apart_refl; exact D0).
  destruct zs as [|a [|b [|c [|? zs]]]]; cbn [List.length] in Hlen, Hm; [lia| | | |lia].
  - destruct ms as [|m1 [|? ms]]; [discriminate| |discriminate].
    assert (A1 := A 1%nat ltac:(cbn; lia)). cbn [nth Nat.sub] in A1.
    unfold close, coefficients_cplx, coefficientsFromMoments. cbn -[real_point cadd cmul copp cdivn c0 c1 apart].
    constructor; [|constructor; [|constructor]].
    + rewrite apart_md. eapply Rle_trans; [|exact D1]. eapply Rle_trans; [|exact A1].
      rewrite <- (md_opp (minus_cR (real_point m1) _)). right. f_equal.
      rewrite rp_opp, rp_div, rp_add, rp_mul, rp_0, rp_1 by lia. unfold scale, power_sum_of.
      generalize (real_point m1); intro x. coords.
    + apply Z. rewrite rp_1. cring.
  - destruct ms as [|m1 [|m2 [|? ms]]]; [discriminate|discriminate| |discriminate].
    assert (A1 := A 1%nat ltac:(cbn; lia)). assert (A2 := A 2%nat ltac:(cbn; lia)). cbn [nth Nat.sub] in A1, A2.
    destruct (U ltac:(cbn; lia)) as (Hd1 & Hzs & U1).
    pose proof (e2_err B d _ _ _ _ HB Hd1 A1 A2 ltac:(pose proof (U1 1%nat); Lra.lra)) as X2.
    change (md (minus_cR (E2 (real_point m1) (real_point m2)) (E2 (power_sum_of [a; b] 1) (power_sum_of [a; b] 2))) <= 4 * B * d) in X2.
    rewrite exact2_2 in X2.
    unfold close, coefficients_cplx, coefficientsFromMoments. cbn -[real_point cadd cmul copp cdivn c0 c1 apart].
    constructor; [|constructor; [|constructor; [|constructor]]].
    + rewrite apart_md. eapply Rle_trans; [|apply D2; cbn; lia]. eapply Rle_trans; [|exact X2]. right. f_equal.
      rewrite !rp_opp || idtac. repeat (rewrite ?rp_div, ?rp_add, ?rp_mul, ?rp_opp, ?rp_0, ?rp_1 by lia). unfold E2, scale.
      generalize (real_point m1) (real_point m2); intros x y. coords.
    + rewrite apart_md. eapply Rle_trans; [|exact D1]. eapply Rle_trans; [|exact A1].
      rewrite <- (md_opp (minus_cR (real_point m1) _)). right. f_equal.
      repeat (rewrite ?rp_div, ?rp_add, ?rp_mul, ?rp_opp, ?rp_0, ?rp_1 by lia). unfold scale, power_sum_of.
      generalize (real_point m1); intro x. coords.
    + apply Z. rewrite rp_1. cring.
  - destruct ms as [|m1 [|m2 [|m3 [|? ms]]]]; [discriminate|discriminate|discriminate| |discriminate].
    assert (A1 := A 1%nat ltac:(cbn; lia)). assert (A2 := A 2%nat ltac:(cbn; lia)). assert (A3 := A 3%nat ltac:(cbn; lia)).
    cbn [nth Nat.sub] in A1, A2, A3.
    destruct (U ltac:(cbn; lia)) as (Hd1 & Hzs & U1).
    assert (Hza : md a <= B) by (apply Hzs; cbn; auto). assert (Hzb : md b <= B) by (apply Hzs; cbn; auto).
    assert (Hzc : md c <= B) by (apply Hzs; cbn; auto).
    assert (P3 : md (E2 (power_sum_of [a; b; c] 1) (power_sum_of [a; b; c] 2)) <= 3 * B ^ 2).
    { rewrite exact2_3. eapply Rle_trans; [apply md_plus|]. pose proof (md_plus (times a c) (times b c)) as T.
      rewrite !md_times in *. pose proof (md_pos a). pose proof (md_pos b). pose proof (md_pos c).
      assert (md a * md b <= B * B) by (apply Rmult_le_compat; assumption).
      assert (md a * md c <= B * B) by (apply Rmult_le_compat; assumption).
      assert (md b * md c <= B * B) by (apply Rmult_le_compat; assumption). Lra.lra. }
    pose proof (e2_err B d _ _ _ _ HB Hd1 A1 A2 ltac:(pose proof (U1 1%nat); Lra.lra)) as X2.
    pose proof (e3_err B d _ _ _ _ _ _ HB Hd1 A1 A2 A3 ltac:(pose proof (U1 1%nat); Lra.lra) (U1 2%nat) P3) as X3.
    change (md (minus_cR (E2 (real_point m1) (real_point m2)) (E2 (power_sum_of [a; b; c] 1) (power_sum_of [a; b; c] 2))) <= 4 * B * d) in X2.
    change (md (minus_cR (E3 (real_point m1) (real_point m2) (real_point m3))
      (E3 (power_sum_of [a; b; c] 1) (power_sum_of [a; b; c] 2) (power_sum_of [a; b; c] 3))) <= 9 * B ^ 2 * d) in X3.
    rewrite exact2_3 in X2. rewrite exact3_3 in X3.
    unfold close, coefficients_cplx, coefficientsFromMoments. cbn -[real_point cadd cmul copp cdivn c0 c1 apart].
    constructor; [|constructor; [|constructor; [|constructor; [|constructor]]]].
    + rewrite apart_md. eapply Rle_trans; [|exact D3]. eapply Rle_trans; [|exact X3]. rewrite <- (md_opp (minus_cR (E3 _ _ _) _)). right. f_equal.
      repeat (rewrite ?rp_div, ?rp_add, ?rp_mul, ?rp_opp, ?rp_0, ?rp_1 by lia). unfold E3, E2, scale.
      generalize (real_point m1) (real_point m2) (real_point m3); intros x y z. coords.
    + rewrite apart_md. eapply Rle_trans; [|apply D2; cbn; lia]. eapply Rle_trans; [|exact X2]. right. f_equal.
      repeat (rewrite ?rp_div, ?rp_add, ?rp_mul, ?rp_opp, ?rp_0, ?rp_1 by lia). unfold E2, scale.
      generalize (real_point m1) (real_point m2); intros x y. coords.
    + rewrite apart_md. eapply Rle_trans; [|exact D1]. eapply Rle_trans; [|exact A1].
      rewrite <- (md_opp (minus_cR (real_point m1) _)). right. f_equal.
      repeat (rewrite ?rp_div, ?rp_add, ?rp_mul, ?rp_opp, ?rp_0, ?rp_1 by lia). unfold scale, power_sum_of.
      generalize (real_point m1); intro x. coords.
    + apply Z. rewrite rp_1. cring.
Qed.
