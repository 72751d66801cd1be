(** The pool of the example, job by job. *)
From Coq Require Import Reals Qreals Qminmax.
From Verif Require Import PyBase Rounding_Model Rounding_Proofs Poly_Model Container_Model Container_Spec Finder_Model Finder_Spec Finder_Proofs
  Refine_Model Refine_Spec Refine_Proofs Zeros_Spec Zeros_Proofs Cache_Model Cache_Spec Cache_Proofs
  Sum_Model Sum_Spec Angle_Proofs Sum_Proofs Sum_Proofs2 Sum_Proofs3 Sum_Proofs4 Sum_Proofs5 Sum_Proofs6
  Arg_Spec Arg_Proofs Arg_Proofs2 Arg_Proofs3 Arg_Proofs4 Arg_Examples
  EndToEnd_Model EndToEnd_Spec EndToEnd_Proofs EndToEnd_Proofs2 EndToEnd_Examples Whole_Model Whole_Spec Whole_Grid Whole_Entry Whole_Inv Whole_Search Whole_Proofs Whole_Proofs2
  Whole_Proofs3 Whole_Examples Whole_Stale Whole_Examples2
  Chunk_Model Chunk_Spec Chunk_Proofs Chunk_Frame Chunk_Proofs2 Chunk_Cut Chunk_Cut2 Chunk_Cut3 Chunk_Loss.
From Coq Require Import Lqa Lra.
Open Scope R_scope.

Notation job i j := (Finder_Proofs.cell 2 wide_x i j).

Lemma job_corners i j : (i < 2)%nat -> (j < 2)%nat ->
  let r := rect_of (job i j) in
  (x1 r == 0 + tw (-2 + 64 * Z.of_nat i) /\ x2 r == 0 + tw (-2 + 64 * Z.of_nat i + 64) /\
   y1 r == 0 + tw (-6 + 32 * Z.of_nat j) /\ y2 r == 0 + tw (-6 + 32 * Z.of_nat j + 32))%Q.
Proof.
  intros Hi Hj. destruct i as [|[|i]]; [| |exfalso; lia]; (destruct j as [|[|j]]; [| |exfalso; lia]); vm_compute; repeat split.
Qed.
Lemma job_on_grid i j : (i < 2)%nat -> (j < 2)%nat -> on_grid piece_shapes (rect_of (job i j)).
Proof.
  intros Hi Hj. exists (-2 + 64 * Z.of_nat i)%Z, (-6 + 32 * Z.of_nat j)%Z, 64%Z, 32%Z.
  split; [left; reflexivity|]. exact (job_corners i j Hi Hj).
Qed.
Lemma wide_on_grid : on_grid all_shapes (rect_of wide_x).
Proof. exists (-2)%Z, (-6)%Z, 128%Z, 64%Z. split; [left; reflexivity|]. vm_compute. repeat split. Qed.

Lemma wide_jobs x : In x (createRootJobs 2 wide_x) -> exists i j, (i < 2)%nat /\ (j < 2)%nat /\ x = job i j.
Proof.
  intro H. apply (jobs_in 2 wide_x ltac:(lia)) in H. destruct H as (i & j & Hi & Hj & ->). exists i, j. auto.
Qed.

Lemma job_reals i j : (i < 2)%nat -> (j < 2)%nat ->
  let r := rect_of (job i j) in
  Q2R (x1 r) = (-2 + 64 * INR i) / 20 /\ Q2R (x2 r) = (62 + 64 * INR i) / 20 /\
  Q2R (y1 r) = (-6 + 32 * INR j) / 20 /\ Q2R (y2 r) = (26 + 32 * INR j) / 20.
Proof.
  intros Hi Hj r. destruct (job_corners i j Hi Hj) as (A & B & C & D). fold r in A, B, C, D.
  rewrite (Qeq_eqR _ _ A), (Qeq_eqR _ _ B), (Qeq_eqR _ _ C), (Qeq_eqR _ _ D), !Q2R_tw.
  rewrite !plus_IZR, !mult_IZR, <- !INR_IZR_INZ. repeat split; lra.
Qed.

(** Which cells see which zero. *)
Lemma zinb_out r q z : inside r q -> (fst z < Q2R (x1 r) \/ Q2R (x2 r) < fst z \/ snd z < Q2R (y1 r) \/ Q2R (y2 r) < snd z) -> zinb q z = false.
Proof.
  intros (I1 & I2 & I3 & I4) H. apply Qle_Rle in I1, I2, I3, I4. unfold zinb.
  repeat match goal with |- context [between_dec ?a ?b ?c] => destruct (between_dec a b c); try (exfalso; lra) end; reflexivity.
Qed.
Lemma zinb_in r z : Q2R (x1 r) < fst z < Q2R (x2 r) -> Q2R (y1 r) < snd z < Q2R (y2 r) -> zinb r z = true.
Proof.
  intros H1 H2. unfold zinb.
  repeat match goal with |- context [between_dec ?a ?b ?c] => destruct (between_dec a b c); try (exfalso; lra) end; reflexivity.
Qed.
Lemma high_elsewhere i j q : (i < 2)%nat -> (j < 2)%nat -> (i, j) <> (0, 1)%nat -> inside (rect_of (job i j)) q ->
  count two_zeros q = count [low_zero] q.
Proof.
  intros Hi Hj N H. unfold count, two_zeros. cbn [filter].
  assert (zinb q high_zero = false) as ->; [|destruct (zinb q low_zero); reflexivity].
  apply (zinb_out _ _ _ H). destruct (job_reals i j Hi Hj) as (A & B & C & D). rewrite A, B, C, D. unfold high_zero. cbn [fst snd].
  destruct i as [|[|i]]; [| |exfalso; lia]; (destruct j as [|[|j]]; [| |exfalso; lia]); cbn [INR]; try congruence; lra.
Qed.
Lemma low_elsewhere i j q : (i < 2)%nat -> (j < 2)%nat -> (i, j) <> (0, 0)%nat -> inside (rect_of (job i j)) q ->
  count [low_zero] q = O.
Proof.
  intros Hi Hj N H. unfold count. cbn [filter].
  assert (zinb q low_zero = false) as ->; [|reflexivity].
  apply (zinb_out _ _ _ H). destruct (job_reals i j Hi Hj) as (A & B & C & D). rewrite A, B, C, D. unfold low_zero. cbn [fst snd].
  destruct i as [|[|i]]; [| |exfalso; lia]; (destruct j as [|[|j]]; [| |exfalso; lia]); cbn [INR]; try congruence; lra.
Qed.
Lemma refl_inside r : inside r r.
Proof. repeat split; apply Qle_refl. Qed.
Lemma low_count : count two_zeros (rect_of (job 0 0)) = 1%nat.
Proof.
  rewrite (high_elsewhere 0 0 _ ltac:(lia) ltac:(lia) ltac:(congruence) (refl_inside _)). unfold count. cbn [filter].
  destruct (job_reals 0 0 ltac:(lia) ltac:(lia)) as (A & B & C & D). cbn [INR] in A, B, C, D.
  rewrite zinb_in; [reflexivity|rewrite A, B|rewrite C, D]; unfold low_zero; cbn [fst snd]; lra.
Qed.
Lemma high_count : count two_zeros (rect_of (job 0 1)) = 1%nat.
Proof.
  destruct (job_reals 0 1 ltac:(lia) ltac:(lia)) as (A & B & C & D). cbn [INR] in A, B, C, D.
  unfold count, two_zeros. cbn [filter].
  rewrite (zinb_in _ high_zero); [|rewrite A, B|rewrite C, D]; unfold high_zero; cbn [fst snd]; try lra.
  rewrite (zinb_out _ _ low_zero (refl_inside _)); [reflexivity|]. rewrite C. unfold low_zero. cbn [fst snd]. lra.
Qed.
Lemma left_count : let r := rect_of (job 0 0) in
  count two_zeros (mkRect (x1 r) ((x1 r + x2 r) / 2) (y1 r) (y2 r)) = O.
Proof.
  intro r. destruct (job_reals 0 0 ltac:(lia) ltac:(lia)) as (A & B & C & D). fold r in A, B, C, D. cbn [INR] in A, B, C, D.
  set (q := mkRect _ _ _ _).
  assert (M : Q2R (x2 q) = 3 / 2).
  { unfold q. cbn [x2]. rewrite Q2R_div, Q2R_plus, A, B by discriminate. unfold Q2R at 1. cbn. lra. }
  unfold count, two_zeros. cbn [filter].
  rewrite !(zinb_out q q) ; try apply refl_inside; try reflexivity; right; left; rewrite M; unfold low_zero, high_zero; cbn [fst]; lra.
Qed.

(** The lost angle. *)
Lemma atan_below u : 0 < u -> atan u < u.
Proof.
  intro Hu. destruct (MVT_cor2 atan (fun t => / (1 + t ^ 2)) 0 u Hu) as (c & H1 & H2 & H3).
  - intros t _. apply derivable_pt_lim_atan.
  - rewrite atan_0 in H1. rewrite !Rminus_0_r in H1. rewrite H1.
    assert (S : 0 < c ^ 2) by nra.
    assert (X : / (1 + c ^ 2) < / 1) by (apply Rinv_lt_contravar; lra).
    rewrite Rinv_1 in X. nra.
Qed.
Lemma lost_angle : 2 * PI / 3 - (1 / 47 + 1 / 49 + 2 / 77) <=
  Theta two_zeros (fun _ => 0) true (13 # 10) (31 # 10) - Theta two_zeros (fun _ => 0) true (13 # 10) (15 # 10).
Proof.
  unfold Theta, angs, two_zeros, low_zero, high_zero. cbn [fold_right along across fst snd].
  assert (E1 : Q2R (13 # 10) = 13 / 10) by (unfold Q2R; cbn; lra).
  assert (E2 : Q2R (31 # 10) = 31 / 10) by (unfold Q2R; cbn; lra).
  assert (E3 : Q2R (15 # 10) = 15 / 10) by (unfold Q2R; cbn; lra).
  rewrite E1, E2, E3.
  match goal with |- _ <= ?A + (?B + 0) + 0 - (?C + (?D + 0) + 0) => replace (A + (B + 0) + 0 - (C + (D + 0) + 0)) with ((A - C) + (B - D)) by ring end.
  rewrite !ang_diff by (left; lra). unfold sg, at0.
  destruct (Req_EM_T (13 / 10 - 1 / 60) 0) as [C|_]; [lra|].
  destruct (Req_EM_T (13 / 10 - 79 / 60) 0) as [C|_]; [lra|].
  replace ((31 / 10 - 184 / 60) / (13 / 10 - 1 / 60)) with (2 / 77) by lra.
  replace ((15 / 10 - 184 / 60) / (13 / 10 - 1 / 60)) with (- (94 / 77)) by lra.
  replace ((31 / 10 - 137 / 60) / (13 / 10 - 79 / 60)) with (Ropp 49) by lra.
  replace ((15 / 10 - 137 / 60) / (13 / 10 - 79 / 60)) with 47 by lra.
  rewrite !atan_opp.
  assert (A1 : atan (/ 47) = PI / 2 - atan 47) by (apply atan_inv; lra).
  assert (A2 : atan (/ 49) = PI / 2 - atan 49) by (apply atan_inv; lra).
  pose proof (atan_below (/ 47) ltac:(lra)). pose proof (atan_below (/ 49) ltac:(lra)). pose proof (atan_below (2 / 77) ltac:(lra)).
  assert (A3 : atan (94 / 77) < PI / 3).
  { rewrite <- (atan_tan (PI / 3)) by (pose proof PI_RGT_0; lra). rewrite tan_PI3. apply atan_increasing.
    rewrite <- (sqrt_square (94 / 77)) by lra. apply sqrt_lt_1; lra. }
  lra.
Qed.
