From Coq Require Import Reals Qreals Qround Permutation.
From Flocq Require Import Core.
From Flocq.Prop Require Import Plus_error Relative.
From Verif Require Import PyBase Refine_Model Float_Model Float_Spec Float_Proofs Float_Proofs4 FloatCont_Proofs Sum_Model Sum_Spec Arg_Spec FloatSum_Model FloatSum_Spec.
From Coq Require Import Lra Lia.
Open Scope R_scope.

Notation u := unit_roundoff.
Lemma u_pos : 0 < u.
Proof. unfold unit_roundoff. apply Rinv_0_lt_compat. apply pow_lt. lra. Qed.

Lemma rnd64_add a b : is_double a -> is_double b ->
  exists e, Rabs e <= u /\ Q2R (rnd64 (a + b)) = (Q2R a + Q2R b) * (1 + e).
Proof.
  intros Ha Hb. apply is_double_iff, representable64 in Ha, Hb.
  assert (P : Prec_gt_0 53) by (unfold Prec_gt_0; lia).
  destruct (FLT_plus_error_N_ex radix2 (-1074) 53 (fun x => negb (Z.even x)) (Q2R a) (Q2R b) Ha Hb) as (e & He & E).
  exists e. split.
  - eapply Rle_trans; [exact He|].
    assert (U : u_ro radix2 53 = u).
    { unfold u_ro, unit_roundoff. change (bpow radix2 (- (53) + 1)) with (/ IZR 4503599627370496).
      replace (2 ^ 53) with 9007199254740992 by (rewrite (pow_IZR 2 53); reflexivity).
      lra. }
    rewrite U. pose proof u_pos as UP. apply Rmult_le_reg_r with (1 + u); [lra|].
    unfold Rdiv. rewrite Rmult_assoc, Rinv_l by lra. nra.
  - rewrite rnd64_flocq, Q2R_plus. exact E.
Qed.

Lemma added_double l s : added_up l s -> (forall x, In x l -> is_double x) -> is_double s.
Proof. intro H. destruct H; intro D; [apply D; left; reflexivity|apply rnd64_double]. Qed.

Lemma total_app l m : total (l ++ m) = total l + total m.
Proof. induction l as [|x l IH]; cbn; [|rewrite IH]; ring. Qed.
Lemma magnitudes_app l m : magnitudes (l ++ m) = magnitudes l + magnitudes m.
Proof. induction l as [|x l IH]; cbn; [|rewrite IH]; ring. Qed.
Lemma total_perm l m : Permutation l m -> total l = total m.
Proof. induction 1; cbn; lra. Qed.
Lemma magnitudes_perm l m : Permutation l m -> magnitudes l = magnitudes m.
Proof. induction 1; cbn; lra. Qed.
Lemma magnitudes_pos l : 0 <= magnitudes l.
Proof. induction l as [|x l IH]; cbn; [lra|]. pose proof (Rabs_pos (Q2R x)). lra. Qed.
Lemma total_magnitudes l : Rabs (total l) <= magnitudes l.
Proof.
  induction l as [|x l IH]; cbn; [rewrite Rabs_R0; lra|]. pose proof (Rabs_triang (Q2R x) (total l)). lra.
Qed.

Lemma added_nonempty l s : added_up l s -> (1 <= List.length l)%nat.
Proof.
  induction 1 as [x|l1 l2 l s1 s2 _ I1 _ I2 P]; [cbn; lia|]. apply Permutation_length in P. rewrite app_length in P. lia.
Qed.

Lemma growth_mono n m : (n <= m)%nat -> (1 + u) ^ n <= (1 + u) ^ m.
Proof. intro H. apply Rle_pow; [pose proof u_pos; lra|exact H]. Qed.
Lemma growth_one n : 1 <= (1 + u) ^ n.
Proof. apply pow_R1_Rle. pose proof u_pos. lra. Qed.

(** [s] is a double obtained from the terms [l] by additions. *)
Definition approximates (l : list Q) (s : Q) : Prop :=
  (1 <= List.length l)%nat /\ is_double s /\
  Rabs (Q2R s - total l) <= ((1 + u) ^ (List.length l - 1) - 1) * magnitudes l.

Lemma combine l1 l2 s1 s2 : approximates l1 s1 -> approximates l2 s2 -> approximates (l1 ++ l2) (rnd64 (s1 + s2)).
Proof.
  intros (N1 & D1 & I1) (N2 & D2 & I2). destruct (rnd64_add s1 s2 D1 D2) as (e & He & E).
  split; [rewrite app_length; lia|]. split; [apply rnd64_double|].
  rewrite E, total_app, magnitudes_app, app_length.
  pose proof (growth_one (List.length l1 - 1)) as G1. pose proof (growth_one (List.length l2 - 1)) as G2.
  set (n := (List.length l1 + List.length l2 - 1)%nat).
  assert (H1 : (1 + u) * (1 + u) ^ (List.length l1 - 1) <= (1 + u) ^ n).
  { change ((1 + u) * (1 + u) ^ (List.length l1 - 1)) with ((1 + u) ^ (S (List.length l1 - 1))). apply growth_mono. lia. }
  assert (H2 : (1 + u) * (1 + u) ^ (List.length l2 - 1) <= (1 + u) ^ n).
  { change ((1 + u) * (1 + u) ^ (List.length l2 - 1)) with ((1 + u) ^ (S (List.length l2 - 1))). apply growth_mono. lia. }
  set (P1 := (1 + u) ^ (List.length l1 - 1)) in *. set (P2 := (1 + u) ^ (List.length l2 - 1)) in *.
  set (PP := (1 + u) ^ n) in *.
  pose proof (magnitudes_pos l1) as M1. pose proof (magnitudes_pos l2) as M2.
  pose proof (total_magnitudes l1) as T1. pose proof (total_magnitudes l2) as T2.
  pose proof u_pos as UP.
  set (a := Q2R s1) in *. set (b := Q2R s2) in *. set (t1 := total l1) in *. set (t2 := total l2) in *.
  set (m1 := magnitudes l1) in *. set (m2 := magnitudes l2) in *.
  assert (B1 : Rabs a <= P1 * m1).
  { replace a with ((a - t1) + t1) by ring. pose proof (Rabs_triang (a - t1) t1). lra. }
  assert (B2 : Rabs b <= P2 * m2).
  { replace b with ((b - t2) + t2) by ring. pose proof (Rabs_triang (b - t2) t2). lra. }
  replace ((a + b) * (1 + e) - (t1 + t2)) with ((a - t1) + ((b - t2) + e * (a + b))) by ring.
  eapply Rle_trans; [apply Rabs_triang|]. eapply Rle_trans; [apply Rplus_le_compat_l, Rabs_triang|].
  rewrite Rabs_mult. pose proof (Rabs_triang a b) as AB.
  assert (X : Rabs e * Rabs (a + b) <= u * (P1 * m1 + P2 * m2)).
  { apply Rmult_le_compat; try apply Rabs_pos; [exact He|lra]. }
  assert (Y1 : ((1 + u) * P1) * m1 <= PP * m1) by (apply Rmult_le_compat_r; assumption).
  assert (Y2 : ((1 + u) * P2) * m2 <= PP * m2) by (apply Rmult_le_compat_r; assumption).
  lra.
Qed.

Lemma approximates_perm l m s : Permutation l m -> approximates l s -> approximates m s.
Proof.
  intros P (A & B & C). unfold approximates.
  rewrite <- (Permutation_length P), <- (total_perm _ _ P), <- (magnitudes_perm _ _ P). auto.
Qed.

Lemma approximates_one x : is_double x -> approximates [x] x.
Proof.
  intro D. split; [cbn; lia|]. split; [exact D|]. cbn. rewrite Rplus_0_r, Rminus_diag_eq by reflexivity. rewrite Rabs_R0. lra.
Qed.

Lemma added_approximates l s : added_up l s -> (forall x, In x l -> is_double x) -> approximates l s.
Proof.
  induction 1 as [x|l1 l2 l s1 s2 A1 I1 A2 I2 P]; intro D.
  - apply approximates_one, D. left. reflexivity.
  - apply (approximates_perm _ _ _ P). apply combine; [apply I1|apply I2]; intros x Hx; apply D;
      apply (Permutation_in _ P), in_or_app; auto.
Qed.

Lemma added_error l s : added_up l s -> (forall x, In x l -> is_double x) ->
  Rabs (Q2R s - total l) <= ((1 + u) ^ (List.length l - 1) - 1) * magnitudes l.
Proof. intros A D. apply (added_approximates l s A D). Qed.

Lemma float_total_approximates t1 t2 t3 t4 p1 p2 p3 p4 :
  approximates t1 p1 -> approximates t2 p2 -> approximates t3 p3 -> approximates t4 p4 ->
  approximates (t1 ++ t2 ++ t3 ++ t4) (float_total [p1; p2; p3; p4]).
Proof.
  intros (A1 & A2 & A3) H2 H3 H4. unfold float_total. cbn [fold_left].
  assert (H0 : approximates t1 (rnd64 (0 + p1))).
  { split; [exact A1|]. split; [apply rnd64_double|].
    assert (E : (rnd64 (0 + p1) == p1)%Q) by (rewrite (rnd64_compat (0 + p1) p1) by ring; apply rnd64_fix, A2).
    rewrite (Qeq_eqR _ _ E). exact A3. }
  rewrite !app_assoc. apply combine; [|exact H4]. apply combine; [|exact H3]. apply combine; assumption.
Qed.

(** (1+u)^n - 1 <= n u / (1 - n u). *)
Lemma growth_bound n : INR n * u < 1 -> (1 + u) ^ n * (1 - INR n * u) <= 1.
Proof.
  pose proof u_pos as UP. induction n as [|n IH]; intro H; [cbn; lra|]. rewrite S_INR in *.
  assert (H' : INR n * u < 1) by lra. specialize (IH H'). pose proof (growth_one n) as G. pose proof (pos_INR n) as N.
  cbn [pow]. set (P := (1 + u) ^ n) in *.
  assert (E : (1 + u) * P * (1 - (INR n + 1) * u) = P * (1 - INR n * u) - P * ((INR n + 1) * u * u)) by ring.
  rewrite E. assert (0 <= P * ((INR n + 1) * u * u)).
  { apply Rmult_le_pos; [lra|]. apply Rmult_le_pos; [|lra]. apply Rmult_le_pos; lra. }
  lra.
Qed.

(** ** The refinement factor *)
Lemma gf_is_double x : is_double x <-> gf64 (Q2R x).
Proof. rewrite <- is_double_iff. apply representable64. Qed.

Lemma scaled_double d : is_double d -> is_double (4 * d).
Proof.
  intro H. apply gf_is_double in H. apply gf_is_double.
  replace (Q2R (4 * d)) with (2 * (2 * Q2R d)) by (rewrite Q2R_mult; unfold Q2R at 2; cbn; lra).
  apply double64, double64, H.
Qed.

Lemma opp_double d : is_double d -> is_double (- d).
Proof. intros (m & e & A & B & C). exists (Z.opp m), e. split; [rewrite Z.abs_opp; exact A|]. split; [exact B|].
  rewrite C, inject_Z_opp. ring. Qed.

Lemma ffactor_large d : (0 < d)%Q -> is_double d -> forall i p, Qle_bool d (Qabs p) = true -> (3 <= ffactor d (S i) p)%nat.
Proof.
  intros Hd D i p H. apply Qle_bool_iff in H. unfold ffactor.
  assert (A : (4 * d <= rnd64 (inject_Z (Z.of_nat (S i) * 100) * Qabs p))%Q).
  { rewrite <- (rnd64_fix (4 * d) (scaled_double d D)). apply rnd64_mono.
    assert (B : (4 <= inject_Z (Z.of_nat (S i) * 100))%Q) by (change 4%Q with (inject_Z 4); rewrite <- Zle_Qle; lia).
    apply Qle_trans with (inject_Z (Z.of_nat (S i) * 100) * d)%Q.
    - apply Qmult_le_compat_r; [exact B|]. apply Qlt_le_weak, Hd.
    - rewrite !(Qmult_comm (inject_Z _)). apply Qmult_le_compat_r; [exact H|]. apply Qle_trans with 4%Q; [discriminate|exact B]. }
  set (q := rnd64 (inject_Z (Z.of_nat (S i) * 100) * Qabs p)) in *.
  assert (B : (4 <= q / d)%Q) by (apply Qle_shift_div_l; assumption).
  assert (F : is_double 4).
  { exists 1%Z, 2%Z. split; [reflexivity|]. split; [discriminate|reflexivity]. }
  assert (C : (4 <= rnd64 (q / d))%Q).
  { rewrite <- (rnd64_fix 4 F). apply rnd64_mono, B. }
  apply Qfloor_resp_le in C. change (Qfloor 4) with 4%Z in C. lia.
Qed.
