(** * Number of phases added up in double precision, with the default settings (C91) *)
From Coq Require Import Reals Qreals Qround.
From Flocq Require Import Core.
From Flocq.Prop Require Import Relative.
From Verif Require Import PyBase Rounding_Model Refine_Model Zeros_Spec Float_Model Float_Spec Float_Proofs Float_Proofs4 FloatCont_Proofs
  Sum_Model Sum_Spec Sum_Proofs Sum_Proofs2 Sum_Proofs6 Sum_Examples Arg_Spec Arg_Examples FloatSum_Model FloatSum_Spec FloatSum_Proofs FloatSum_Proofs3 Samples_Spec Samples_Proofs.
From Coq Require Import Lqa Lra Lia.
Open Scope R_scope.

Lemma rnd64_near q : 1 <= Q2R q -> 999 / 1000 * Q2R q <= Q2R (rnd64 q) <= 1001 / 1000 * Q2R q.
Proof.
  intro H. rewrite rnd64_flocq. set (x := Q2R q) in *.
  assert (P : Prec_gt_0 53) by (unfold Prec_gt_0; lia).
  assert (B : bpow radix2 (-1074 + 53 - 1) <= Rabs x).
  { rewrite (Rabs_right x) by lra. apply Rle_trans with (bpow radix2 0); [apply bpow_le; lia|cbn; exact H]. }
  pose proof (relative_error_N_FLT radix2 (-1074) 53 P (fun x => negb (Z.even x)) x B) as E.
  rewrite (Rabs_right x) in E by lra.
  assert (U : / 2 * bpow radix2 (-53 + 1) <= / 1000).
  { apply Rle_trans with (bpow radix2 (-10)).
    - assert (0 < bpow radix2 (-53 + 1)) by apply bpow_gt_0.
      assert (bpow radix2 (-53 + 1) <= bpow radix2 (-10)) by (apply bpow_le; lia). lra.
    - cbn. lra. }
  assert (E2 : Rabs (round64 x - x) <= / 1000 * x).
  { eapply Rle_trans; [exact E|]. apply Rmult_le_compat_r; [lra|exact U]. }
  apply Rabs_le_inv in E2. lra.
Qed.

Lemma Qfloor_R q : IZR (Qfloor q) <= Q2R q < IZR (Qfloor q) + 1.
Proof.
  split.
  - rewrite <- Q2R_Z. apply Qle_Rle, Qfloor_le.
  - replace (IZR (Qfloor q) + 1) with (Q2R (inject_Z (Qfloor q + 1))) by (rewrite Q2R_Z, plus_IZR; reflexivity).
    apply Qlt_Rlt, Qlt_floor.
Qed.

Lemma ffactor_near d : (1 # 100 <= d)%Q -> forall i p, Qle_bool d (Qabs p) = true ->
  let x := INR (S i) * 100 * (Rabs (Q2R p) / Q2R d) in
  99 / 100 * x - 1 <= INR (ffactor d (S i) p) <= 101 / 100 * x.
Proof.
  intros Hd i p H x. apply Qle_bool_iff in H.
  pose proof (Qle_Rle _ _ Hd) as Hd'. replace (Q2R (1 # 100)) with (/ 100) in Hd' by (unfold Q2R; cbn; lra).
  pose proof (Qle_Rle _ _ H) as H'. rewrite Q2R_abs in H'.
  set (D := Q2R d) in *. set (a := Rabs (Q2R p)) in *.
  assert (N : 1 <= INR (S i)) by (rewrite S_INR; pose proof (pos_INR i); lra).
  set (m := (inject_Z (Z.of_nat (S i) * 100) * Qabs p)%Q).
  assert (EM : Q2R m = INR (S i) * 100 * a).
  { unfold m. rewrite Q2R_mult, Q2R_Z, Q2R_abs, mult_IZR, <- INR_IZR_INZ. reflexivity. }
  assert (M1 : 1 <= Q2R m) by (rewrite EM; nra).
  pose proof (rnd64_near m M1) as R1. set (r := rnd64 m) in *.
  assert (D0 : 0 < / D) by (apply Rinv_0_lt_compat; lra).
  assert (AD : 1 <= a / D).
  { apply Rmult_le_reg_r with D; [lra|]. unfold Rdiv. rewrite Rmult_assoc, Rinv_l by lra. lra. }
  assert (ER : Q2R (r / d) = Q2R r / D).
  { rewrite Q2R_div; [reflexivity|]. intro C. apply Qeq_eqR in C. fold D in C. unfold Q2R in C at 1. cbn in C. lra. }
  assert (EX : Q2R m * / D = x) by (rewrite EM; unfold x, Rdiv; ring).
  assert (X100 : 100 <= x).
  { unfold x. assert (1 * 1 <= INR (S i) * (a / D)) by (apply Rmult_le_compat; lra). lra. }
  assert (R2 : 999 / 1000 * x <= Q2R (r / d) <= 1001 / 1000 * x).
  { rewrite ER, <- EX. unfold Rdiv at 1 2 3. split.
    - replace (999 * / 1000 * (Q2R m * / D)) with ((999 / 1000 * Q2R m) * / D) by (unfold Rdiv; ring).
      apply Rmult_le_compat_r; lra.
    - replace (1001 / 1000 * (Q2R m * / D)) with ((1001 / 1000 * Q2R m) * / D) by (unfold Rdiv; ring).
      apply Rmult_le_compat_r; lra. }
  assert (R3 : 1 <= Q2R (r / d)) by lra.
  pose proof (rnd64_near (r / d) R3) as R4.
  unfold ffactor. fold m. fold r. destruct (Qfloor_R (rnd64 (r / d))) as [F1 F2].
  assert (0 <= Qfloor (rnd64 (r / d)))%Z.
  { apply Z.lt_succ_r. apply lt_IZR. unfold Z.succ. rewrite plus_IZR. lra. }
  rewrite INR_IZR_INZ, Z2Nat.id by assumption. lra.
Qed.

Lemma ffactor_grows d : (1 # 100 <= d)%Q -> forall i p, Qle_bool d (Qabs p) = true -> (98 * S i <= ffactor d (S i) p)%nat.
Proof.
  intros Hd i p H. destruct (ffactor_near d Hd i p H) as [A _]. cbn zeta in A.
  apply Qle_bool_iff in H.
  pose proof (Qle_Rle _ _ Hd) as Hd'. replace (Q2R (1 # 100)) with (/ 100) in Hd' by (unfold Q2R; cbn; lra).
  pose proof (Qle_Rle _ _ H) as H'. rewrite Q2R_abs in H'.
  assert (AD : 1 <= Rabs (Q2R p) / Q2R d).
  { apply Rmult_le_reg_r with (Q2R d); [lra|]. unfold Rdiv. rewrite Rmult_assoc, Rinv_l by lra. lra. }
  assert (N : 1 <= INR (S i)) by (rewrite S_INR; pose proof (pos_INR i); lra).
  apply INR_le. rewrite mult_INR. replace (INR 98) with 98 by (cbn; lra).
  assert (INR (S i) * 1 <= INR (S i) * (Rabs (Q2R p) / Q2R d)) by (apply Rmult_le_compat_l; lra).
  lra.
Qed.

Definition fmost (d : Q) (i : nat) : nat := Z.to_nat (Int_part (INR i * 404 / Q2R d)).
Lemma fmost_bound d i : (1 # 100 <= d)%Q -> INR (fmost d i) <= INR i * 40400.
Proof.
  intro Hd. pose proof (Qle_Rle _ _ Hd) as Hd'. replace (Q2R (1 # 100)) with (/ 100) in Hd' by (unfold Q2R; cbn; lra).
  unfold fmost. set (x := INR i * 404 / Q2R d). pose proof (pos_INR i) as N.
  assert (D0 : 0 < / Q2R d) by (apply Rinv_0_lt_compat; lra).
  assert (D1 : / Q2R d <= 100) by (rewrite <- (Rinv_inv 100); apply Rinv_le_contravar; lra).
  assert (X : 0 <= x <= INR i * 40400) by (unfold x, Rdiv; split; nra).
  destruct (base_Int_part x) as [B1 B2].
  assert (0 <= Int_part x)%Z.
  { apply Z.lt_succ_r. apply lt_IZR. unfold Z.succ. rewrite plus_IZR. lra. }
  rewrite INR_IZR_INZ, Z2Nat.id by assumption. lra.
Qed.

Lemma ffactor_limited d p : (1 # 100 <= d)%Q -> (Qabs p <= 4)%Q -> forall i, Qle_bool d (Qabs p) = true ->
  (ffactor d (S i) p <= fmost d (S i))%nat.
Proof.
  intros Hd H4 i H. destruct (ffactor_near d Hd i p H) as [_ A]. cbn zeta in A.
  pose proof (Qle_Rle _ _ Hd) as Hd'. replace (Q2R (1 # 100)) with (/ 100) in Hd' by (unfold Q2R; cbn; lra).
  apply Qle_Rle in H4. rewrite Q2R_abs in H4. replace (Q2R 4) with 4 in H4 by (unfold Q2R; cbn; lra).
  pose proof (pos_INR (S i)) as N.
  assert (D0 : 0 < / Q2R d) by (apply Rinv_0_lt_compat; lra).
  assert (B : INR (ffactor d (S i) p) <= INR (S i) * 404 / Q2R d).
  { eapply Rle_trans; [exact A|]. unfold Rdiv.
    replace (101 * / 100 * (INR (S i) * 100 * (Rabs (Q2R p) * / Q2R d))) with ((INR (S i) * (101 * Rabs (Q2R p))) * / Q2R d) by lra.
    apply Rmult_le_compat_r; [lra|]. apply Rmult_le_compat_l; lra. }
  unfold fmost. set (x := INR (S i) * 404 / Q2R d) in *. destruct (base_Int_part x) as [B1 B2].
  assert (L : (Z.of_nat (ffactor d (S i) p) <= Int_part x)%Z).
  { apply Z.lt_succ_r. apply lt_IZR. unfold Z.succ. rewrite plus_IZR, <- INR_IZR_INZ. lra. }
  lia.
Qed.

Lemma possible_98 n k : possible n 98 k -> (k * k <= 3 * n)%nat.
Proof. unfold possible. nia. Qed.

(** A line in double precision has at most 100 n + 40400 (k + 1) phases, k^2 <= 3 n. *)
Lemma float_samples fz phase dphi close n prec fuel a b zs phis found :
  (1 # 100 <= dphi)%Q -> (1 <= n)%nat -> (forall z z', (Qabs (phase z z') <= 4)%Q) ->
  genPhiArr [] fz (fun z z' : cplx => [phase z z']) (fun l : list Q => Qle_bool dphi (Qabs (hd 0%Q l)))
      (fun idx (l : list Q) => ffactor dphi idx (hd 0%Q l)) close n prec fuel 0 a b = Gen zs phis found ->
  exists k, (k * k <= 3 * n)%nat /\ INR (List.length phis) <= 100 * INR n + 40400 * INR (S k).
Proof.
  intros Hd Hn H4 G.
  assert (C3 : (3 <= 98)%nat) by lia.
  assert (FG : forall i (l : list Q), Qle_bool dphi (Qabs (hd 0%Q l)) = true -> (98 * S i <= ffactor dphi (S i) (hd 0%Q l))%nat)
    by (intros; apply ffactor_grows; assumption).
  assert (FL : forall i z z', Qle_bool dphi (Qabs (hd 0%Q [phase z z'])) = true -> (ffactor dphi (S i) (hd 0%Q [phase z z']) <= fmost dphi (S i))%nat)
    by (intros; apply ffactor_limited; [exact Hd|apply H4|assumption]).
  pose proof (gen_lengths [] fz (fun z z' : cplx => [phase z z']) (fun l : list Q => Qle_bool dphi (Qabs (hd 0%Q l))) (fun idx (l : list Q) => ffactor dphi idx (hd 0%Q l)) close n prec 98 C3 FG fuel a b zs phis found Hn G) as L.
  unfold lengths in L.
  destruct (gen_size [] fz (fun z z' : cplx => [phase z z']) (fun l : list Q => Qle_bool dphi (Qabs (hd 0%Q l))) (fun idx (l : list Q) => ffactor dphi idx (hd 0%Q l)) close n prec 98 (fmost dphi) C3 FG FL fuel a b zs phis found Hn G) as [E|(k & K1 & K2)].
  - exists O. split; [lia|]. assert (List.length phis <= n)%nat by lia. apply le_INR in H.
    cbn [INR]. pose proof (pos_INR n). lra.
  - exists k. split; [apply possible_98, K1|]. pose proof (fmost_bound dphi (S k) Hd) as F.
    assert (B : (List.length phis <= 100 * n + fmost dphi (S k))%nat) by lia. apply le_INR in B.
    rewrite plus_INR, mult_INR in B. replace (INR 100) with 100 in B by (cbn; lra). lra.
Qed.

Lemma default_count n k (c : R) : INR n <= 6500 -> (k * k <= 3 * n)%nat -> c <= 100 * INR n + 40400 * INR (S k) -> c <= 2 ^ 23.
Proof.
  intros Hn Hk Hc. apply le_INR in Hk. rewrite !mult_INR in Hk. replace (INR 3) with 3 in Hk by (cbn; lra).
  rewrite S_INR in Hc. pose proof (pos_INR k) as K.
  assert (INR k <= 140) by nra. lra.
Qed.

Lemma default_rectangle f zeros L dphi close n prec fuel eps eta r st fz phase :
  (1 # 100 <= dphi)%Q -> is_double dphi -> (2 <= n)%nat -> INR n <= 6500 -> (100 * n + 3 <= fuel)%nat -> (x1 r < x2 r)%Q -> (y1 r < y2 r)%Q ->
  factorised f zeros L r -> 0 <= eta < PI -> well_sampled n eta L zeros r ->
  0 <= eps <= / 2 ^ 30 -> phases_within eps eta f r phase -> (forall z z', (Qabs (phase z z') <= 4)%Q) -> zeros_only f r fz ->
  fresh_level st true (y1 r) -> fresh_level st true (y2 r) -> fresh_level st false (x1 r) -> fresh_level st false (x2 r) ->
  exists st1 st2 st3 st4 t1 t2 t3 t4,
    fsum_line fz phase dphi close n prec fuel 0 (x1 r, y1 r) (x2 r, y1 r) st = (st1, SumOk [] t1) /\
    fsum_line fz phase dphi close n prec fuel 0 (x2 r, y1 r) (x2 r, y2 r) st1 = (st2, SumOk [] t2) /\
    fsum_line fz phase dphi close n prec fuel 0 (x2 r, y2 r) (x1 r, y2 r) st2 = (st3, SumOk [] t3) /\
    fsum_line fz phase dphi close n prec fuel 0 (x1 r, y2 r) (x1 r, y1 r) st3 = (st4, SumOk [] t4) /\
    INR (List.length (t1 ++ t2 ++ t3 ++ t4)) <= 2 ^ 25 /\
    forall p1 p2 p3 p4 c q, float_sum t1 p1 -> float_sum t2 p2 -> float_sum t3 p3 -> float_sum t4 p4 ->
      let phi := Q2R (float_total [p1; p2; p3; p4]) in
      Rabs (c - 8 / 10 * (2 * PI)) <= / 20 -> Rabs (Q2R q - phi / (2 * PI)) <= / 20 ->
      (phi < c <-> count zeros r = O) /\ round_half_even q = Z.of_nat (count zeros r).
Proof.
  intros Hd Dd N2 Hn Hf Wx Wy HF He HS Hp PW H4 ZO F1 F2 F3 F4.
  assert (D0 : (0 < dphi)%Q) by Lqa.lra.
  destruct (rounded_principle_limited f zeros L dphi close n prec fuel eps eta r st fz phase
    (fun c => INR c <= 2 ^ 23)) as (st1 & st2 & st3 & st4 & t1 & t2 & t3 & t4 & E1 & E2 & E3 & E4 & _ & M1 & M2 & M3 & M4 & G);
    try assumption.
  { intros a b zs phis found GG.
    destruct (float_samples fz phase dphi close n prec fuel a b zs phis found Hd ltac:(lia) H4 GG) as (k & K1 & K2).
    exact (default_count n k _ Hn K1 K2). }
  { exact (proj2 He). }
  exists st1, st2, st3, st4, t1, t2, t3, t4. do 4 (split; [assumption|]).
  assert (B : INR (List.length (t1 ++ t2 ++ t3 ++ t4)) <= 2 ^ 25) by (rewrite !app_length, !plus_INR; lra).
  split; [exact B|]. intros p1 p2 p3 p4 c q S1 S2 S3 S4 phi Hc Hq.
  apply close_decides; [|exact Hc|exact Hq].
  eapply Rle_lt_trans; [exact (G p1 p2 p3 p4 S1 S2 S3 S4)|]. apply tolerance_small; assumption.
Qed.

Lemma PI_upper : PI <= 347 / 100.
Proof. destruct (PI_ineq 1) as [_ H]. cbn [sum_f_R0 Nat.mul Nat.add] in H. unfold tg_alt, PI_tg in H. cbn in H. lra. Qed.

Lemma default_numbers n delta c : INR n <= 6500 -> / 100 <= delta -> sample_limit n delta c -> INR c <= 4650000.
Proof.
  intros Hn Hd (k & K1 & K2). apply le_INR in K1. rewrite !mult_INR in K1. replace (INR 2) with 2 in K1 by (cbn; lra).
  rewrite S_INR in K2. pose proof (pos_INR k) as K. pose proof PI_upper as P. pose proof PI_RGT_0 as P0.
  assert (B : INR k <= 1141 / 10) by nra.
  assert (D0 : 0 < / delta) by (apply Rinv_0_lt_compat; lra).
  assert (D1 : / delta <= 100) by (rewrite <- (Rinv_inv 100); apply Rinv_le_contravar; lra).
  assert (X : (INR k + 1) * 100 * PI / delta <= 1151 / 10 * 100 * (347 / 100) * 100).
  { assert (X1 : (INR k + 1) * 100 * PI <= 1151 / 10 * 100 * (347 / 100)) by (apply Rmult_le_compat; lra).
    assert (X0 : 0 <= (INR k + 1) * 100 * PI) by (apply Rmult_le_pos; lra).
    unfold Rdiv at 1. apply Rmult_le_compat; lra. }
  lra.
Qed.

Lemma rounded_phase_small f z z' : (Qabs (rounded_phase f z z') <= 4)%Q.
Proof.
  unfold rounded_phase. pose proof (phase_step_range f z z') as H. set (x := phase_step f z z') in *.
  pose proof PI_upper as P. apply Rabs_le_inv in H.
  destruct (archimed (x * 1099511627776)) as [A B]. set (m := up (x * 1099511627776)) in *.
  apply Rle_Qle. rewrite Q2R_abs, Q2R_mult, Q2R_Z.
  assert (E : Q2R (2 ^ (-40)) = / 1099511627776) by (unfold Q2R; cbn; lra).
  rewrite E. replace (Q2R 4) with 4 by (unfold Q2R; cbn; lra). apply Rabs_le. split; lra.
Qed.

Lemma default_example : let f := zero_product three_zeros in
  (1 # 100 <= 1 # 64)%Q /\ is_double (1 # 64) /\ INR 3 <= 6500 /\ factorised f three_zeros 0 square /\
  well_sampled 3 3 0 three_zeros square /\ 0 <= 3 < PI /\ 0 <= / 2 ^ 40 <= / 2 ^ 30 /\
  phases_within (/ 2 ^ 40) 3 f square (rounded_phase f) /\ (forall z z', (Qabs (rounded_phase f z z') <= 4)%Q) /\
  zeros_only f square (vanishes f) /\ count three_zeros square = 2%nat /\
  (forall h l, fresh_level (mkSum [] [] : sum_state (list Q)) h l).
Proof.
  intro f. destruct rounded_example as (_ & A2 & A3 & A4 & A5 & A6 & A7 & A8 & A9).
  split; [discriminate|]. split; [exact A2|]. split; [cbn; lra|]. split; [exact A3|]. split; [exact A4|]. split; [lra|].
  split. { assert (0 < / 2 ^ 40) by (apply Rinv_0_lt_compat; lra). assert (/ 2 ^ 40 <= / 2 ^ 30) by (apply Rinv_le_contravar; lra). lra. }
  split; [exact A6|]. split; [apply rounded_phase_small|]. split; [exact A7|]. split; [exact A8|exact A9].
Qed.

Lemma memory_example : let q := mkRequest one 5 (1#1000) 3 (5, 5)%Z 1 0 (-1, 0)%Q (1, 0)%Q in
  same_settings 5 3 [q] /\ stored_levels (served [q]) = 1%nat /\ stored_arrays (served [q]) = 2%nat.
Proof.
  intro q. split; [intros ? [<-|[]]; split; reflexivity|].
  assert (E : exists v, served [q] = mkSum (storeCache 0 0 (-1) 1 v [((0%Q, 0%Z), [])]) []).
  { assert (G : gen_phi one 5 (1#1000) 3 (5, 5)%Z 1 0 (-1, 0)%Q (1, 0)%Q =
      Gen (linspaceC (-1, 0)%Q (1, 0)%Q 3) (increments (phase_step one) (linspaceC (-1, 0)%Q (1, 0)%Q 3)) []).
    { apply gen_phi_unrefined; [pose proof PI_upper; lra|]. intros z _ C. injection C as C. lra. }
    eexists. unfold served. cbn [fold_left]. unfold serve, sum_line, sumLine, q.
    cbn [rq_start rq_end rq_f rq_delta rq_maxprec rq_numPts rq_precision rq_fuel rq_order re im fst snd]. rewrite Qeq_bool_refl.
    rewrite retrieve_miss; [|reflexivity|reflexivity]. unfold gen_phi in G. rewrite G. reflexivity. }
  destruct E as (v & ->). split; reflexivity.
Qed.
