(** * Summation estimator: concrete cases *)
From Coq Require Import Reals.
From Verif Require Import PyBase Cache_Proofs Sum_Model Sum_Spec Angle_Proofs Sum_Proofs Sum_Proofs2 Sum_Proofs3 Sum_Proofs4 Sum_Proofs5 Sum_Proofs6.
From Coq Require Import Qreals Lra Lqa.
Open Scope Z_scope.

Lemma identity_proper z z' : ceq z z' -> identity z = identity z'.
Proof. intros [A B]. unfold identity. rewrite (Qeq_eqR _ _ A), (Qeq_eqR _ _ B). reflexivity. Qed.

Lemma Q2R_0 : Q2R 0 = 0%R. Proof. unfold Q2R. cbn. Lra.lra. Qed.
Lemma Q2R_1 : Q2R 1 = 1%R. Proof. unfold Q2R. cbn. Lra.lra. Qed.
Lemma Q2R_m1 : Q2R (-1) = Ropp 1. Proof. unfold Q2R. cbn. Lra.lra. Qed.


Definition rad (t : Q) : R := sqrt (1 + Rsqr (Q2R t)).
Lemma rad_pos t : (0 < rad t)%R.
Proof. apply sqrt_lt_R0. pose proof (Rle_0_sqr (Q2R t)). Lra.lra. Qed.
Lemma rad_cos t : (rad t * cos (atan (Q2R t)) = 1)%R.
Proof. rewrite cos_atan. change (sqrt _) with (rad t). pose proof (rad_pos t). field. Lra.lra. Qed.
Lemma rad_sin t : (rad t * sin (atan (Q2R t)) = Q2R t)%R.
Proof. rewrite sin_atan. change (sqrt _) with (rad t). pose proof (rad_pos t). field. Lra.lra. Qed.

Lemma polar_right t : polar (identity (1, t)%Q) (rad t) (atan (Q2R t)).
Proof.
  split; [apply rad_pos|]. unfold identity. cbn [re im fst snd]. rewrite rad_cos, rad_sin, Q2R_1. split; reflexivity.
Qed.
Lemma polar_top t : polar (identity (t, 1)%Q) (rad t) (PI / 2 - atan (Q2R t))%R.
Proof.
  split; [apply rad_pos|]. unfold identity. cbn [re im fst snd].
  rewrite cos_shift, sin_shift, rad_cos, rad_sin, Q2R_1. split; reflexivity.
Qed.
Lemma polar_left t : polar (identity (-1, t)%Q) (rad t) (PI - atan (Q2R t))%R.
Proof.
  split; [apply rad_pos|]. unfold identity. cbn [re im fst snd]. rewrite Q2R_m1.
  rewrite sin_PI_x, cos_minus, cos_PI, sin_PI, rad_sin. split; [|reflexivity].
  pose proof (rad_cos t). Lra.lra.
Qed.
Lemma polar_bottom t : polar (identity (t, -1)%Q) (rad t) (atan (Q2R t) - PI / 2)%R.
Proof.
  split; [apply rad_pos|]. unfold identity. cbn [re im fst snd]. rewrite Q2R_m1.
  replace (atan (Q2R t) - PI / 2)%R with (- (PI / 2 - atan (Q2R t)))%R by ring.
  rewrite cos_neg, sin_neg, cos_shift, sin_shift, rad_sin. split; [reflexivity|].
  pose proof (rad_cos t). Lra.lra.
Qed.

Lemma atan_move s t : (Rabs (atan s - atan t) < PI)%R.
Proof. pose proof (atan_bound s). pose proof (atan_bound t). apply Rabs_def1; Lra.lra. Qed.

(** Four sides of the square [-1,1]^2, sampled with 3 points and no refinement. *)
Lemma square_runs : exists st1 st2 st3 st4 p1 p2 p3 p4,
  sum_line identity 5 (1#1000) 3 (5, 5) 1 0 (-1, -1)%Q (1, -1)%Q fresh_sum = (st1, SumOk [] p1) /\
  sum_line identity 5 (1#1000) 3 (5, 5) 1 0 (1, -1)%Q (1, 1)%Q st1 = (st2, SumOk [] p2) /\
  sum_line identity 5 (1#1000) 3 (5, 5) 1 0 (1, 1)%Q (-1, 1)%Q st2 = (st3, SumOk [] p3) /\
  sum_line identity 5 (1#1000) 3 (5, 5) 1 0 (-1, 1)%Q (-1, -1)%Q st3 = (st4, SumOk [] p4).
Proof.
  assert (D0 : (0 < 5)%R) by Lra.lra.
  assert (DP : (PI < 5)%R) by (pose proof PI_4; Lra.lra).
  assert (L : (-1 < 1)%Q) by reflexivity. assert (N2 : (2 <= 3)%nat) by lia.
  pose proof (line_frame identity 5 (1#1000) 3 (5, 5) D0 N2) as LF.
  assert (NZ : forall horiz level, (level == 1 \/ level == -1)%Q ->
    forall z, In z (linspaceC (mkpoint horiz level (-1)) (mkpoint horiz level 1) 3) -> nonzero (identity z)).
  { intros horiz level HL z Hz. apply identity_nonzero. intros [A B].
    destruct horiz; cbn in Hz; destruct Hz as [H|[H|[H|[]]]]; rewrite <- H in A, B; cbn in A, B;
      destruct HL; Lqa.lra. }
  assert (F0 : forall h l, level_free fresh_sum h l) by (intros [] l; reflexivity).
  destruct (free_line_unrefined identity 5 (1#1000) 3 (5,5) true (-1) (-1) 1 0 fresh_sum DP L (F0 _ _)
     (NZ _ _ (or_intror (Qeq_refl _)))) as (st1 & p1 & E1).
  assert (G1 : forall h l, (h <> true \/ ~ (l == -1)%Q) -> level_free st1 h l)
    by (intros h l X; exact (LF _ _ _ _ _ _ _ _ h l L (F0 _ _) E1 X (F0 _ _))).
  destruct (free_line_unrefined identity 5 (1#1000) 3 (5,5) false 1 (-1) 1 0 st1 DP L
     (G1 false 1%Q ltac:(left; discriminate)) (NZ _ _ (or_introl (Qeq_refl _)))) as (st2 & p2 & E2).
  assert (G2 : forall h l, (h <> true \/ ~ (l == -1)%Q) -> (h <> false \/ ~ (l == 1)%Q) -> level_free st2 h l)
    by (intros h l X Y; exact (LF _ _ _ _ _ _ _ _ h l L (G1 false 1%Q ltac:(left; discriminate)) E2 Y (G1 _ _ X))).
  assert (F3 : level_free st2 true 1) by (apply G2; [right; discriminate|left; discriminate]).
  destruct (free_line_unrefined identity 5 (1#1000) 3 (5,5) true 1 (-1) 1 0 st2 DP L F3
     (NZ _ _ (or_introl (Qeq_refl _)))) as (st3 & p3 & E3).
  assert (F4 : level_free st3 false (-1)).
  { refine (LF _ _ _ _ _ _ _ _ false (-1)%Q L F3 E3 _ _); [left; discriminate|].
    apply G2; [left; discriminate|right; discriminate]. }
  destruct (free_line_unrefined identity 5 (1#1000) 3 (5,5) false (-1) (-1) 1 0 st3 DP L F4
     (NZ _ _ (or_intror (Qeq_refl _)))) as (st4 & p4 & E4).
  exists st1, st2, st3, st4, p1, p2, (-p3)%R, (-p4)%R.
  unfold mkpoint in *.
  split; [exact E1|]. split; [exact E2|]. split.
  - rewrite (sum_line_swap identity 5 (1#1000) 3 (5,5) 1 0 (-1) 1 1 st2) by discriminate. rewrite E3. reflexivity.
  - rewrite (sum_line_swap_vertical identity 5 (1#1000) 3 (5,5) 1 0 (-1) (-1) 1 st3) by discriminate.
    rewrite E4. reflexivity.
Qed.

Lemma square_winding delta mp n prec fuel1 fuel2 fuel3 fuel4 st1 st2 st3 st4 p1 p2 p3 p4 :
  (0 < delta)%R -> (2 <= n)%nat ->
  sum_line identity delta mp n prec fuel1 0 (-1, -1)%Q (1, -1)%Q fresh_sum = (st1, SumOk [] p1) ->
  sum_line identity delta mp n prec fuel2 0 (1, -1)%Q (1, 1)%Q st1 = (st2, SumOk [] p2) ->
  sum_line identity delta mp n prec fuel3 0 (1, 1)%Q (-1, 1)%Q st2 = (st3, SumOk [] p3) ->
  sum_line identity delta mp n prec fuel4 0 (-1, 1)%Q (-1, -1)%Q st3 = (st4, SumOk [] p4) ->
  (p1 + p2 + p3 + p4 = 2 * PI)%R.
Proof.
  intros D N E1 E2 E3 E4.
  rewrite (rectangle_winding identity delta mp n prec D (-1) 1 (-1) 1 fuel1 fuel2 fuel3 fuel4 fresh_sum st1 st2 st3 st4 p1 p2 p3 p4
    (fun t => atan (Q2R t) - PI / 2)%R (fun t => atan (Q2R t)) (fun t => PI / 2 - atan (Q2R t))%R (fun t => PI - atan (Q2R t))%R
    rad rad rad rad N).
  - rewrite Q2R_m1, atan_opp, atan_1. Lra.lra.
  - reflexivity.
  - reflexivity.
  - exact identity_proper.
  - reflexivity.
  - reflexivity.
  - reflexivity.
  - reflexivity.
  - intros t _ _. split; [apply polar_bottom|apply polar_top].
  - intros t _ _. split; [apply polar_left|apply polar_right].
  - intros t t' _ _ _ _. split.
    + replace (atan (Q2R t') - PI / 2 - (atan (Q2R t) - PI / 2))%R with (atan (Q2R t') - atan (Q2R t))%R by ring. apply atan_move.
    + replace (PI / 2 - atan (Q2R t') - (PI / 2 - atan (Q2R t)))%R with (atan (Q2R t) - atan (Q2R t'))%R by ring. apply atan_move.
  - intros t t' _ _ _ _. split.
    + replace (PI - atan (Q2R t') - (PI - atan (Q2R t)))%R with (atan (Q2R t) - atan (Q2R t'))%R by ring. apply atan_move.
    + apply atan_move.
  - rewrite Q2R_1, Q2R_m1, atan_opp, atan_1. Lra.lra.
  - rewrite Q2R_1, atan_1. Lra.lra.
  - rewrite Q2R_1, Q2R_m1, atan_opp, atan_1. Lra.lra.
  - exact E1. - exact E2. - exact E3. - exact E4.
Qed.

(** Too coarse sampling: one full turn between neighbouring samples. *)
Definition turning (z : cplx) : cR := (cos (2 * PI * Q2R (re z)), sin (2 * PI * Q2R (re z)))%R.

Lemma turning_polar t : polar (turning (t, 0)%Q) 1 (2 * PI * Q2R t).
Proof. split; [Lra.lra|]. cbn [turning re fst snd]. split; ring. Qed.

Lemma turning_whole q : (exists k, q == inject_Z (Z.of_nat k))%Q -> turning (q, 0)%Q = (1, 0)%R.
Proof.
  intros [k K]. unfold turning. cbn [re fst]. rewrite (Qeq_eqR _ _ K).
  assert (E : Q2R (inject_Z (Z.of_nat k)) = INR k).
  { unfold Q2R, inject_Z. cbn. rewrite INR_IZR_INZ. field. }
  rewrite E. replace (2 * PI * INR k)%R with (0 + 2 * INR k * PI)%R by ring.
  rewrite cos_period, sin_period, cos_0, sin_0. reflexivity.
Qed.

Lemma undersampled delta mp prec fuel : (0 < delta)%R ->
  snd (sum_line turning delta mp 3 prec (S fuel) 0 (0, 0)%Q (2, 0)%Q fresh_sum) = SumOk [] 0%R.
Proof.
  intro D. change (0, 0)%Q with (mkpoint true 0 0). change (2, 0)%Q with (mkpoint true 0 2).
  rewrite sum_line_as_retrieve by reflexivity. rewrite retrieve_miss by reflexivity.
  unfold genPhiArr, genFuncArr. cbn [Z.eqb shift_loop].
  set (zs := linspaceC (mkpoint true 0 0) (mkpoint true 0 2) 3).
  assert (Z : forall z, In z zs -> turning z = (1, 0)%R).
  { intros z Hz. cbn in Hz.
    assert (H : exists q, turning z = turning (q, 0)%Q /\ exists k, (q == inject_Z (Z.of_nat k))%Q).
    { destruct Hz as [<-|[<-|[<-|[]]]].
      - exists 0%Q. split; [reflexivity|exists 0%nat; reflexivity].
      - eexists. split; [reflexivity|exists 1%nat; reflexivity].
      - exists 2%Q. split; [reflexivity|exists 2%nat; reflexivity]. }
    destruct H as (q & -> & H). apply turning_whole, H. }
  assert (filter (vanishes turning) zs = []) as ->.
  { revert Z. generalize zs. intros l Z. induction l as [|z l IH]; [reflexivity|]. cbn.
    assert (vanishes turning z = false) as ->.
    { apply vanishes_false. rewrite Z by (left; reflexivity). intro C. injection C as C. Lra.lra. }
    apply IH. intros; apply Z; right; assumption. }
  assert (I : increments (phase_step turning) zs = [0; 0]%R).
  { assert (P : forall z z', In z zs -> In z' zs -> phase_step turning z z' = 0%R).
    { intros z z' H H'. unfold phase_step. rewrite (Z z H), (Z z' H'). unfold quotient, arctan2. cbn [fst snd].
      destruct (Rlt_dec 0 _) as [|C]; [|exfalso; Lra.lra].
      replace ((0 * 1 - 1 * 0) / (1 * 1 + 0 * 0) / ((1 * 1 + 0 * 0) / (1 * 1 + 0 * 0)))%R with 0%R by field.
      apply atan_0. }
    unfold zs, linspaceC. cbn [map seq app increments].
    f_equal; [|f_equal]; apply P; unfold zs, linspaceC; cbn; auto. }
  rewrite I. cbn [phi_loop first_index].
  assert (at_least delta 0 = false) as ->.
  { unfold at_least. destruct (Rle_dec delta (Rabs 0)) as [C|]; [|reflexivity]. rewrite Rabs_R0 in C. Lra.lra. }
  cbn. unfold asum. cbn. f_equal. Lra.lra.
Qed.

(** A zero on a sample point: the whole array is moved off the line. *)
Lemma vanishes_true f z : f z = (0, 0)%R -> vanishes f z = true.
Proof.
  intro H. unfold vanishes. rewrite H. cbn.
  destruct (Req_EM_T 0 0) as [_|N]; [|exfalso; apply N; reflexivity].
  destruct (Req_EM_T 0 0) as [_|N]; [reflexivity|exfalso; apply N; reflexivity].
Qed.

Lemma zero_on_sample : exists zs phis,
  gen_phi identity 5 (1#1000) 3 (5, 5) 3 0 (-1, 0)%Q (1, 0)%Q = Gen zs phis [(-1 + (1#2) * (1 - -1), 0 + (1#2) * (0 - 0))%Q] /\
  forall z, In z zs -> ~ (im z == 0)%Q.
Proof.
  unfold gen_phi, genPhiArr, genFuncArr. cbn [Z.eqb].
  set (zs0 := linspaceC (-1, 0)%Q (1, 0)%Q 3).
  set (s := line_shift (5, 5) (-1, 0)%Q (1, 0)%Q).
  assert (NZ : forall z, ~ ceq z (0,0)%Q -> vanishes identity z = false) by (intros z H; apply vanishes_false, identity_nonzero, H).
  assert (E0 : filter (vanishes identity) zs0 = [(-1 + (1#2) * (1 - -1), 0 + (1#2) * (0 - 0))%Q]).
  { unfold zs0. unfold linspaceC. cbn [map seq app filter].
    rewrite NZ by (intros [A _]; cbn in A; Lqa.lra).
    rewrite vanishes_true.
    2:{ rewrite (identity_proper _ (0, 0)%Q) by (split; reflexivity). unfold identity. cbn [re im fst snd]. rewrite Q2R_0. reflexivity. }
    rewrite NZ by (intros [A _]; cbn in A; Lqa.lra). reflexivity. }
  assert (S1 : forall z, In z (translate s zs0) -> ~ (im z == 0)%Q).
  { intros z Hz. vm_compute in Hz. destruct Hz as [<-|[<-|[<-|[]]]]; intro C; vm_compute in C; discriminate. }
  assert (E1 : filter (vanishes identity) (translate s zs0) = []).
  { revert S1. generalize (translate s zs0). intros l S1. induction l as [|z l IH]; [reflexivity|]. cbn.
    rewrite NZ; [apply IH; intros; apply S1; right; assumption|].
    intros [_ B]. exact (S1 z (or_introl eq_refl) B). }
  cbn [shift_loop]. rewrite E0, E1. cbn [app].
  cbn [phi_loop].
  assert (first_index (at_least 5) (increments (phase_step identity) (translate s zs0)) = None) as ->.
  { apply first_index_none. intros p Hp. rewrite increments_steps in Hp.
    assert (G : forall vs, In p (steps vs) -> exists q, p = arctan2 q).
    { clear. induction vs as [|v vs IH]; intro H; [contradiction|]. destruct vs as [|w vs]; [contradiction|].
      destruct H as [<-|H]; [eexists; reflexivity|apply IH, H]. }
    destruct (G _ Hp) as [q ->]. unfold at_least. destruct (Rle_dec 5 (Rabs (arctan2 q))) as [C|]; [|reflexivity].
    exfalso. pose proof (arctan2_range q) as [A B]. pose proof PI_4.
    assert (Rabs (arctan2 q) <= PI)%R by (apply Rabs_le; Lra.lra). Lra.lra. }
  eexists _, _. split; [reflexivity|exact S1].
Qed.

(** A stale answer: after the identity, the constant 1 gets the identity's phase. *)
Definition one (z : cplx) : cR := (1, 0)%R.

Lemma one_fresh delta mp n prec fuel p st' horiz level t1 t2 st : (0 < delta)%R -> (2 <= n)%nat -> (t1 < t2)%Q ->
  level_free st horiz level ->
  sum_line one delta mp n prec fuel 0 (mkpoint horiz level t1) (mkpoint horiz level t2) st = (st', SumOk [] p) -> p = 0%R.
Proof.
  intros D N L F H.
  rewrite (line_exact one delta mp n prec D N horiz level fuel t1 t2 st st' p (fun _ => 0%R) (fun _ => 1%R) L F).
  - Lra.lra.
  - reflexivity.
  - intros t _ _. split; [Lra.lra|]. cbn. rewrite cos_0, sin_0. split; ring.
  - intros. rewrite Rminus_0_r, Rabs_R0. apply PI_RGT_0.
  - exact H.
Qed.

Lemma stale_line : exists st1 st2 p,
  sum_line identity 5 (1#1000) 3 (5, 5) 1 0 (-1, -1)%Q (1, -1)%Q fresh_sum = (st1, SumOk [] (PI / 2)%R) /\
  snd (sum_line one 5 (1#1000) 3 (5, 5) 1 0 (-1, -1)%Q (1, -1)%Q st1) = SumOk [] (PI / 2)%R /\
  sum_line one 5 (1#1000) 3 (5, 5) 1 0 (-1, -1)%Q (1, -1)%Q fresh_sum = (st2, SumOk [] p) /\ p = 0%R.
Proof.
  destruct square_runs as (st1 & _ & _ & _ & p1 & _ & _ & _ & E1 & _).
  assert (D0 : (0 < 5)%R) by Lra.lra. assert (N2 : (2 <= 3)%nat) by lia.
  assert (P : p1 = (PI / 2)%R).
  { rewrite (line_exact identity 5 (1#1000) 3 (5,5) D0 N2 true (-1) 1 (-1) 1 fresh_sum st1 p1
      (fun t => atan (Q2R t) - PI / 2)%R rad); try reflexivity.
    - rewrite Q2R_1, Q2R_m1, atan_opp, atan_1. Lra.lra.
    - exact identity_proper.
    - intros. apply polar_bottom.
    - intros. replace (atan (Q2R t') - PI / 2 - (atan (Q2R t) - PI / 2))%R with (atan (Q2R t') - atan (Q2R t))%R by ring. apply atan_move.
    - exact E1. }
  assert (DP : (PI < 5)%R) by (pose proof PI_4; Lra.lra).
  destruct (free_line_unrefined one 5 (1#1000) 3 (5,5) true (-1) (-1) 1 0 fresh_sum DP eq_refl eq_refl) as (st2 & p & E2).
  { intros z _ C. injection C as C. Lra.lra. }
  exists st1, st2, p. subst p1. split; [exact E1|]. split.
  - exact (requery identity 5 (1#1000) 3 (5,5) D0 N2 true (-1) 1 (-1) 1 fresh_sum st1 _ eq_refl ltac:(lia) eq_refl E1
      1%Q one 5%R (1#1000) 3%nat (5,5) 1%nat (Qle_refl _)).
  - split; [exact E2|]. exact (one_fresh 5 (1#1000) 3 (5,5) 1 p st2 true (-1) (-1) 1 fresh_sum D0 N2 eq_refl eq_refl E2).
Qed.

(** Vertical lines: IndexError. *)
Lemma vertical_index_error (delta := 5%R) : exists st1 st2 p1 p2,
  sum_line one delta (1#1000) 11 (5, 5) 1 0 (0, 0)%Q (0, 10)%Q fresh_sum = (st1, SumOk [] p1) /\
  sum_line one delta (1#1000) 11 (5, 5) 1 0 (0, 0)%Q (0, 9#2)%Q st1 = (st2, SumOk [] p2) /\
  snd (sum_line one delta (1#1000) 11 (5, 5) 1 0 (0, 21#5)%Q (0, 9#2)%Q st2) = SumErr IndexError.
Proof.
  assert (DP : (PI < delta)%R) by (pose proof PI_4; unfold delta; Lra.lra).
  assert (D0 : (0 < delta)%R) by (unfold delta; Lra.lra).
  assert (E : sum_line one delta (1#1000) 11 (5, 5) 1 0 (0, 0)%Q (0, 10)%Q fresh_sum =
     (mkSum [] (storeCache 0 0 0 10 (linspaceC (0,0)%Q (0,10)%Q 11, increments (phase_step one) (linspaceC (0,0)%Q (0,10)%Q 11))
        (dset okey_eqb (0%Q, 0) [] [])), SumOk [] (Rsum (increments (phase_step one) (linspaceC (0,0)%Q (0,10)%Q 11))))).
  { change (0, 0)%Q with (mkpoint false 0 0). change (0, 10)%Q with (mkpoint false 0 10).
    rewrite sum_line_as_retrieve by reflexivity. rewrite retrieve_miss by reflexivity.
    pose proof (gen_phi_unrefined one delta (1#1000) 11 (5,5) (mkpoint false 0 0) (mkpoint false 0 10) 0 DP) as G.
    unfold gen_phi in G. rewrite G; [reflexivity|]. intros z _ C. injection C as C. Lra.lra. }
  rewrite E. clear E. set (zs := linspaceC (0,0)%Q (0,10)%Q 11). generalize (increments (phase_step one) zs). intro phis.
  set (st1 := mkSum _ _).
  destruct (start_hit false 0 one delta (1#1000) 11 (5,5) 1 0 (9#2) st1 zs phis 4) as (st2 & E2 & O2 & C2).
  - reflexivity.
  - reflexivity.
  - vm_compute. lia.
  - vm_compute. reflexivity.
  - exists st1, st2. eexists _, _. split; [reflexivity|]. split; [exact E2|].
    change (0, 21#5)%Q with (mkpoint false 0 (21#5)). change (0, 9#2)%Q with (mkpoint false 0 (9#2)).
    rewrite sum_line_as_retrieve by reflexivity.
    rewrite C2. unfold retrieveCached. cbv beta. vm_compute. reflexivity.
Qed.
