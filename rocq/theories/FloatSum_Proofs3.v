(** * Total phase in double precision: statements (C90) *)
From Coq Require Import Reals Qreals Qround.
From Verif Require Import PyBase Rounding_Model Refine_Model Zeros_Spec Float_Model Float_Spec Sum_Model Sum_Spec Arg_Spec Arg_Proofs4 Arg_Examples
  Float_Proofs FloatSum_Model FloatSum_Spec FloatSum_Proofs FloatSum_Proofs2 Sum_Proofs4.
From Coq Require Import Lqa Lra.
Open Scope R_scope.

Lemma tolerance_mono n m eps eta : (n <= m)%nat -> 0 <= eps -> 0 <= eta + eps -> sum_tolerance n eps eta <= sum_tolerance m eps eta.
Proof.
  intros H H1 H2. unfold sum_tolerance. pose proof (le_INR _ _ H) as L. pose proof (growth_mono _ _ H) as G.
  pose proof (growth_one n) as G1. pose proof (pos_INR n) as P.
  apply Rplus_le_compat; [apply Rmult_le_compat_r; assumption|].
  apply Rmult_le_compat; [lra| |lra|].
  - apply Rmult_le_pos; lra.
  - apply Rmult_le_compat_r; assumption.
Qed.

Lemma rounded_principle_limited f zeros L dphi close n prec fuel eps eta r st fz phase (limit : nat -> Prop) :
  (forall a b zs phis found,
    genPhiArr [] fz (fun z z' : cplx => [phase z z']) (fun l : list Q => Qle_bool dphi (Qabs (hd 0%Q l)))
      (fun idx (l : list Q) => ffactor dphi idx (hd 0%Q l)) close n prec fuel 0 a b = Gen zs phis found -> limit (List.length phis)) ->
  (0 < dphi)%Q -> is_double dphi -> (2 <= n)%nat -> (100 * n + 3 <= fuel)%nat -> (x1 r < x2 r)%Q -> (y1 r < y2 r)%Q ->
  factorised f zeros L r -> eta < PI -> well_sampled n eta L zeros r ->
  phases_within eps eta f r phase -> zeros_only f r fz ->
  fresh_level st true (y1 r) -> fresh_level st true (y2 r) -> fresh_level st false (x1 r) -> fresh_level st false (x2 r) ->
  exists st1 st2 st3 st4 t1 t2 t3 t4,
    fsum_line fz phase dphi close n prec fuel 0 (x1 r, y1 r) (x2 r, y1 r) st = (st1, SumOk [] t1) /\
    fsum_line fz phase dphi close n prec fuel 0 (x2 r, y1 r) (x2 r, y2 r) st1 = (st2, SumOk [] t2) /\
    fsum_line fz phase dphi close n prec fuel 0 (x2 r, y2 r) (x1 r, y2 r) st2 = (st3, SumOk [] t3) /\
    fsum_line fz phase dphi close n prec fuel 0 (x1 r, y2 r) (x1 r, y1 r) st3 = (st4, SumOk [] t4) /\
    (1 <= List.length t1 /\ 1 <= List.length t2 /\ 1 <= List.length t3 /\ 1 <= List.length t4)%nat /\
    limit (List.length t1) /\ limit (List.length t2) /\ limit (List.length t3) /\ limit (List.length t4) /\
    forall p1 p2 p3 p4, float_sum t1 p1 -> float_sum t2 p2 -> float_sum t3 p3 -> float_sum t4 p4 ->
      Rabs (Q2R (float_total [p1; p2; p3; p4]) - 2 * PI * INR (count zeros r)) <=
      sum_tolerance (List.length (t1 ++ t2 ++ t3 ++ t4)) eps eta.
Proof.
  intros HLim Hd Hdd Hn Hf Wx Wy (FP & LP & rho & theta & FE & TL) He HS PW ZO F1 F2 F3 F4.
  assert (HI : inside r r) by (unfold inside; repeat split; apply Qle_refl).
  destruct (rounded_rectangle f zeros L r rho theta FP LP FE TL eps eta He fz phase PW dphi close n prec fuel Hd Hdd Hn Hf ZO limit HLim
    r st HI (conj Wx Wy) HS F1 F2 F3 F4) as (st1 & st2 & st3 & st4 & t1 & t2 & t3 & t4 & E1 & E2 & E3 & E4 & NE & M1 & M2 & M3 & M4 & G).
  exists st1, st2, st3, st4, t1, t2, t3, t4. do 4 (split; [assumption|]). split; [exact NE|]. do 4 (split; [assumption|]).
  intros p1 p2 p3 p4 S1 S2 S3 S4. destruct G as (G1 & G2 & G3 & G4). destruct NE as (N1 & N2 & N3 & N4).
  assert (A : forall t p, (1 <= List.length t)%nat -> float_sum t p -> (forall x, In x t -> is_double x) -> approximates t p).
  { intros t p N [[-> _]|S] D; [cbn in N; lia|]. apply added_approximates; assumption. }
  assert (AA : approximates (t1 ++ t2 ++ t3 ++ t4) (float_total [p1; p2; p3; p4])).
  { apply float_total_approximates; apply A; try assumption; intros x Hx; apply G2; rewrite !in_app_iff; auto. }
  destruct AA as (_ & _ & B). set (t := t1 ++ t2 ++ t3 ++ t4) in *. set (s := Q2R (float_total [p1; p2; p3; p4])) in *.
  replace (s - 2 * PI * INR (count zeros r)) with ((s - total t) + (total t - 2 * PI * INR (count zeros r))) by ring.
  eapply Rle_trans; [apply Rabs_triang|]. unfold sum_tolerance.
  assert (K : ((1 + u) ^ (List.length t - 1) - 1) * magnitudes t <= ((1 + u) ^ List.length t - 1) * (INR (List.length t) * (eta + eps))).
  { pose proof (growth_one (List.length t - 1)) as Q1. assert (Q2 : (1 + u) ^ (List.length t - 1) <= (1 + u) ^ List.length t) by (apply growth_mono; lia).
    apply Rmult_le_compat; [lra|apply magnitudes_pos|lra|exact G4]. }
  lra.
Qed.

Lemma rounded_principle f zeros L dphi close n prec fuel eps eta r st fz phase :
  (0 < dphi)%Q -> is_double dphi -> (2 <= n)%nat -> (100 * n + 3 <= fuel)%nat -> (x1 r < x2 r)%Q -> (y1 r < y2 r)%Q ->
  factorised f zeros L r -> eta < PI -> well_sampled n eta L zeros r ->
  phases_within eps eta f r phase -> zeros_only f r fz ->
  fresh_level st true (y1 r) -> fresh_level st true (y2 r) -> fresh_level st false (x1 r) -> fresh_level st false (x2 r) ->
  exists st1 st2 st3 st4 t1 t2 t3 t4,
    fsum_line fz phase dphi close n prec fuel 0 (x1 r, y1 r) (x2 r, y1 r) st = (st1, SumOk [] t1) /\
    fsum_line fz phase dphi close n prec fuel 0 (x2 r, y1 r) (x2 r, y2 r) st1 = (st2, SumOk [] t2) /\
    fsum_line fz phase dphi close n prec fuel 0 (x2 r, y2 r) (x1 r, y2 r) st2 = (st3, SumOk [] t3) /\
    fsum_line fz phase dphi close n prec fuel 0 (x1 r, y2 r) (x1 r, y1 r) st3 = (st4, SumOk [] t4) /\
    (1 <= List.length t1 /\ 1 <= List.length t2 /\ 1 <= List.length t3 /\ 1 <= List.length t4)%nat /\
    forall p1 p2 p3 p4, float_sum t1 p1 -> float_sum t2 p2 -> float_sum t3 p3 -> float_sum t4 p4 ->
      Rabs (Q2R (float_total [p1; p2; p3; p4]) - 2 * PI * INR (count zeros r)) <=
      sum_tolerance (List.length (t1 ++ t2 ++ t3 ++ t4)) eps eta.
Proof.
  intros Hd Hdd Hn Hf Wx Wy F He HS PW ZO F1 F2 F3 F4.
  destruct (rounded_principle_limited f zeros L dphi close n prec fuel eps eta r st fz phase (fun _ => True)
    (fun _ _ _ _ _ _ => Logic.I) Hd Hdd Hn Hf Wx Wy F He HS PW ZO F1 F2 F3 F4)
    as (st1 & st2 & st3 & st4 & t1 & t2 & t3 & t4 & E1 & E2 & E3 & E4 & NE & _ & _ & _ & _ & G).
  exists st1, st2, st3, st4, t1, t2, t3, t4. do 4 (split; [assumption|]). split; [exact NE|exact G].
Qed.

(** ** Thirty million phases *)
Lemma tolerance_small n eps eta : INR n <= 2 ^ 25 -> 0 <= eps <= / 2 ^ 30 -> 0 <= eta < PI -> sum_tolerance n eps eta < 3 / 5.
Proof.
  intros N [E0 E1] [H0 H1]. pose proof PI_4 as P4.
  assert (E2 : / 2 ^ 30 = / 1073741824) by (f_equal; lra). rewrite E2 in E1.
  replace (2 ^ 25) with 33554432 in N by lra.
  pose proof (pos_INR n) as N0.
  assert (U : u = / 9007199254740992) by (unfold unit_roundoff; f_equal; lra).
  assert (UU : INR n * u <= / 268435456).
  { apply Rle_trans with (33554432 * u); [apply Rmult_le_compat_r; [left; apply u_pos|exact N]|]. rewrite U. lra. }
  pose proof (growth_bound n ltac:(lra)) as G. pose proof (growth_one n) as G1.
  unfold sum_tolerance. set (P := (1 + u) ^ n) in *. set (x := INR n * u) in *.
  assert (X0 : 0 <= x) by (apply Rmult_le_pos; [exact N0|left; apply u_pos]).
  assert (PB : P - 1 <= / 260000000).
  { assert (P <= 2) by nra. assert (P <= 1 + 2 * / 268435456) by nra. nra. }
  assert (A : INR n * eps <= 33554432 * / 1073741824) by (apply Rmult_le_compat; lra).
  assert (B : (P - 1) * (INR n * (eta + eps)) <= / 260000000 * (33554432 * (4 + / 1000))).
  { apply Rmult_le_compat; [lra| |exact PB|].
    - apply Rmult_le_pos; lra.
    - apply Rmult_le_compat; lra. }
  lra.
Qed.

Lemma close_decides phi k c q : Rabs (phi - 2 * PI * INR k) < 3 / 5 ->
  Rabs (c - 8 / 10 * (2 * PI)) <= / 20 -> Rabs (Q2R q - phi / (2 * PI)) <= / 20 ->
  (phi < c <-> k = O) /\ round_half_even q = Z.of_nat k.
Proof.
  intros H1 H2 H3. pose proof PI_RGT_0 as PP. pose proof PI2_3_2 as P3. 
  apply Rabs_def2 in H1 as [H1a H1b].
  assert (H2' : c - 8 / 10 * (2 * PI) <= / 20 /\ - / 20 <= c - 8 / 10 * (2 * PI)).
  { split; [eapply Rle_trans; [apply Rle_abs|exact H2]|].
    pose proof (Rle_abs (- (c - 8 / 10 * (2 * PI)))) as X. rewrite Rabs_Ropp in X. lra. }
  destruct H2' as [H2a H2b]. split.
  - split.
    + intro Hc. destruct k as [|k]; [reflexivity|exfalso]. rewrite S_INR in *. pose proof (pos_INR k) as K. nra.
    + intros ->. cbn [INR] in *. lra.
  - assert (D : Rabs (phi / (2 * PI) - INR k) <= / 5).
    { replace (phi / (2 * PI) - INR k) with ((phi - 2 * PI * INR k) * / (2 * PI)) by (field; lra).
      rewrite Rabs_mult. rewrite (Rabs_right (/ (2 * PI))) by (apply Rle_ge; left; apply Rinv_0_lt_compat; lra).
      apply Rle_trans with (3 / 5 * / 3); [|lra]. apply Rmult_le_compat; [apply Rabs_pos|left; apply Rinv_0_lt_compat; lra| |apply Rinv_le_contravar; lra].
      left. apply Rabs_def1; lra. }
    assert (D2 : Rabs (Q2R q - INR k) < / 2).
    { replace (Q2R q - INR k) with ((Q2R q - phi / (2 * PI)) + (phi / (2 * PI) - INR k)) by ring.
      eapply Rle_lt_trans; [apply Rabs_triang|]. lra. }
    rewrite <- Znearest_Q. apply Flocq.Core.Generic_fmt.Znearest_imp. rewrite <- INR_IZR_INZ. exact D2.
Qed.

(** ** Example *)
Definition rounded_phase (f : cplx -> cR) (z z' : cplx) : Q := (inject_Z (up (phase_step f z z' * 1099511627776)) * 2 ^ (-40))%Q.

Lemma rounded_phase_within f r : phases_within (/ 2 ^ 40) 3 f r (rounded_phase f).
Proof.
  intros z z' _ _ _ H. unfold rounded_phase. set (x := phase_step f z z') in *.
  destruct (archimed (x * 1099511627776)) as [A B]. set (m := up (x * 1099511627776)) in *.
  assert (X : -3 <= x <= 3).
  { split; [|eapply Rle_trans; [apply Rle_abs|exact H]]. pose proof (Rle_abs (- x)) as K. rewrite Rabs_Ropp in K. lra. }
  split.
  - exists m, (-40)%Z. split; [|split; [lia|reflexivity]].
    assert (m < 2 ^ 42)%Z by (apply lt_IZR; change (2 ^ 42)%Z with 4398046511104%Z; lra).
    assert (- 2 ^ 42 < m)%Z by (apply lt_IZR; change (- 2 ^ 42)%Z with (-4398046511104)%Z; lra).
    change (2 ^ 42)%Z with 4398046511104%Z in *. change (2 ^ 53)%Z with 9007199254740992%Z. lia.
  - rewrite Q2R_mult, Q2R_Z.
    assert (E : Q2R (2 ^ (-40)) = / 1099511627776) by (unfold Q2R; cbn; lra).
    rewrite E. assert (E2 : / 2 ^ 40 = / 1099511627776) by (f_equal; lra). rewrite E2.
    apply Rabs_le. split; lra.
Qed.

Lemma rounded_example : let f := zero_product [(0, 0); (0, 0); (3, 3)] in
  (0 < 1 # 64)%Q /\ is_double (1 # 64) /\ factorised f [(0, 0); (0, 0); (3, 3)] 0 square /\
  well_sampled 3 3 0 [(0, 0); (0, 0); (3, 3)] square /\ 3 < PI /\
  phases_within (/ 2 ^ 40) 3 f square (rounded_phase f) /\ zeros_only f square (vanishes f) /\
  count [(0, 0); (0, 0); (3, 3)] square = 2%nat /\
  (forall h l, fresh_level (mkSum [] [] : sum_state (list Q)) h l).
Proof.
  intro f. split; [reflexivity|]. split; [exists 1%Z, (-6)%Z; split; [reflexivity|split; [discriminate|reflexivity]]|].
  split; [exact (polynomial_factorised three_zeros square)|]. split; [exact square_sampled|]. split; [exact PI_3|].
  split; [apply rounded_phase_within|]. split; [intros z _ H; apply vanishes_false, H|]. split; [exact square_count|].
  intros [|] l; reflexivity.
Qed.
