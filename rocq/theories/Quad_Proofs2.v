(** * Quadrature estimator: closed form, reversal, Romberg's rule *)
From Coq Require Import Reals Qreals.
From Verif Require Import PyBase Sum_Model Sum_Spec Angle_Proofs Sum_Proofs Sum_Proofs2 Sum_Proofs4 Quad_Model Quad_Spec Quad_Proofs.
From Coq Require Import Permutation Lra Lqa.
Open Scope Z_scope.

Lemma to_cR_proper z z' : ceq z z' -> to_cR z = to_cR z'.
Proof. intros [A B]. unfold to_cR. rewrite (Qeq_eqR _ _ A), (Qeq_eqR _ _ B). reflexivity. Qed.

Lemma integrand_proper f df order : proper f -> proper df -> proper (integrand f df order).
Proof. intros F D z z' E. unfold integrand. rewrite (F _ _ E), (D _ _ E), (to_cR_proper _ _ E). reflexivity. Qed.

Lemma small_iff x : below_thousandth x = true <-> (Rabs x < 1 / 1000)%R.
Proof. unfold below_thousandth. destruct (Rlt_dec (Rabs x) (1 / 1000)); split; intro; try discriminate; try contradiction; auto. Qed.

Lemma test_iff romb g a b k : test g romb below_thousandth a b k = true <-> close_to (rule romb g a b k) (rule romb g a b (k - 1)).
Proof.
  unfold test, close_to. rewrite Bool.andb_true_iff, !small_iff. reflexivity.
Qed.

Lemma INR_Q2R n : INR n = Q2R (inject_Z (Z.of_nat n)).
Proof. unfold Q2R, inject_Z. cbn. rewrite INR_IZR_INZ. field. Qed.

Lemma Q2R_factor N x : (1 <= N)%nat -> Q2R ((1 - 1 / inject_Z (Z.of_nat N)) * x) = ((1 - 1 / INR N) * Q2R x)%R.
Proof.
  intro H. pose proof (NQpos _ H) as HP. rewrite Q2R_mult, Q2R_minus, Q2R_div by (intro C; rewrite C in HP; Lqa.lra).
  rewrite <- INR_Q2R. assert (Q2R 1 = 1%R) as -> by (unfold Q2R; cbn; Lra.lra). reflexivity.
Qed.

Lemma quad_value romb f df prec fuel order a b v : proper f -> proper df ->
  quad_line romb f (Some df) prec fuel order a b = QuadOk [] v ->
  exists stop used, stops_at (rule romb (integrand f df order) a b) stop used /\
    v = scale (length_factor stop) (line_value a b (rule romb (integrand f df order) a b used)).
Proof.
  intros PF PD H. unfold quad_line in H. set (g := integrand f df order) in *.
  assert (PG : forall z z', ceq z z' -> g z = g z') by (apply integrand_proper; assumption).
  unfold quad_iterate in H.
  destruct (quad_init _ _ _ _ _ _ _ _) as [s0|] eqn:E0; [|discriminate].
  destruct (quad_loop _ _ _ _ _ _ _ _) as [c s| |] eqn:E1; try discriminate.
  injection H as HF HV.
  pose proof (found_kept _ _ _ _ _ a b _ _ _ _ E1 HF) as F0.
  destruct (init_good _ g romb prec PG a b fuel s0 E0 F0) as (G0 & C0 & S0).
  destruct (loop_result _ g romb below_thousandth prec PG a b fuel s0 c s G0 C0 E1 HF) as (G & L1 & L2 & L3).
  rewrite S0 in *. pose proof G as (G1 & G2 & _ & _ & _ & G6 & G7).
  set (I := rule romb g a b) in *.
  exists (samplePts s), (if c then samplePts s - 1 else samplePts s)%nat. split.
  - assert (P11 : (11 <= samplePts s)%nat) by (destruct c; [lia|destruct L3 as [L3 _]; lia]).
    split; [lia|]. split.
    + intros k K1 K2. specialize (L2 k ltac:(lia) K2). intro CC. apply test_iff in CC. congruence.
    + destruct c.
      * left. destruct L3 as (_ & _ & T). split; [apply test_iff, T|reflexivity].
      * right. destruct L3 as (T1 & _ & T2). split; [exact T1|]. split; [exact T1|].
        intro CC. apply test_iff in CC. rewrite T2 in CC by lia. discriminate.
  - assert (V : (q_real s, q_imag s) = I (if c then samplePts s - 1 else samplePts s)%nat).
    { destruct c; [apply L3|]. destruct L3 as (_ & T & _). exact T. }
    rewrite <- V.
    assert (FAC : to_cR (re (q_end s) - re (q_start s), im (q_end s) - im (q_start s))%Q =
       scale (length_factor (samplePts s)) (Q2R (re b - re a), Q2R (im b - im a))).
    { unfold length_factor. destruct (Nat.leb (samplePts s) 12) eqn:LE.
      - apply Nat.leb_le in LE. destruct (G6 LE) as [-> ->]. unfold scale, to_cR. cbn [fst snd re im]. rewrite !Rmult_1_l. reflexivity.
      - apply Nat.leb_gt in LE. rewrite (to_cR_proper _ _ (G7 LE)). unfold to_cR, scale. cbn [re im fst snd].
        rewrite !Q2R_factor by apply pow2_pos. reflexivity. }
    pose proof (f_equal fst FAC) as FA. pose proof (f_equal snd FAC) as FB. unfold to_cR, scale in FA, FB. cbn [fst snd re im] in FA, FB.
    rewrite FA, FB in HV. rewrite <- HV. unfold line_value, scale, times, cR_mul. change (distance a b) with (distance_of a b). cbn [fst snd]. f_equal; unfold Rdiv; ring.
Qed.

(** ** Reversal *)
Lemma stops_at_unique I stop used stop' used' : stops_at I stop used -> stops_at I stop' used' -> stop = stop' /\ used = used'.
Proof.
  intros (A1 & A2 & A3) (B1 & B2 & B3).
  assert (stop = stop').
  { destruct (Nat.lt_trichotomy stop stop') as [L|[E|L]]; [|exact E|].
    - exfalso. destruct A3 as [[A3 _]|(A3 & _)]; [|lia]. apply (B2 stop); [lia|exact L|exact A3].
    - exfalso. destruct B3 as [[B3 _]|(B3 & _)]; [|lia]. apply (A2 stop'); [lia|exact L|exact B3]. }
  subst stop'. split; [reflexivity|]. destruct A3 as [[A3 A4]|(A3 & A4 & A5)], B3 as [[B3 B4]|(B3 & B4 & B5)]; try congruence; contradiction.
Qed.

Lemma uniform_rev a b N : (1 <= N)%nat -> Forall2 ceq (uniform b a N) (rev (uniform a b N)).
Proof.
  intro H. pose proof (NQpos _ H) as HP.
  assert (E : rev (uniform a b N) = map (fun i => linpoint a b N (N - i)) (seq 0 (S N))).
  { unfold uniform; change point_at with linpoint. rewrite <- map_rev. rewrite <- (map_map (fun i => N - i)%nat (linpoint a b N)). f_equal.
    apply nth_ext with (d := 0%nat) (d' := (N - 0)%nat).
    - rewrite rev_length, map_length. reflexivity.
    - intros i Hi. rewrite rev_length, seq_length in Hi. rewrite rev_nth by (rewrite seq_length; lia).
      rewrite seq_length. rewrite (map_nth (fun i => N - i)%nat). rewrite !seq_nth by lia. lia. }
  rewrite E. unfold uniform; change point_at with linpoint.
  assert (G : forall l, (forall i, In i l -> (i <= N)%nat) ->
    Forall2 ceq (map (linpoint b a N) l) (map (fun i => linpoint a b N (N - i)) l)).
  { induction l as [|i l IH]; intro HI; [constructor|]. cbn [map]. constructor; [|apply IH; intros; apply HI; right; assumption].
    assert (HI' : (i <= N)%nat) by (apply HI; left; reflexivity).
    assert (X : (inject_Z (Z.of_nat (N - i)) == inject_Z (Z.of_nat N) - inject_Z (Z.of_nat i))%Q).
    { rewrite Nat2Z.inj_sub by exact HI'. unfold Zminus. rewrite inject_Z_plus, inject_Z_opp. reflexivity. }
    unfold linpoint, ceq. cbn [re im fst snd]. rewrite X. split; field; Lqa.lra. }
  apply G. intros i Hi. apply in_seq in Hi. lia.
Qed.

Lemma distance_sym a b : distance a b = distance b a.
Proof.
  unfold distance. f_equal. rewrite !Q2R_minus. unfold Rsqr. ring.
Qed.

Lemma rule_rev romb g a b k : (forall k l dx, List.length l = S (2 ^ k) -> romb (rev l) dx = romb l dx) -> (forall z z', ceq z z' -> g z = g z') ->
  rule romb g b a k = rule romb g a b k.
Proof.
  intros HR PG. unfold rule. rewrite (distance_sym b a).
  pose proof (uniform_rev a b (2 ^ k) (pow2_pos k)) as U.
  assert (M : forall h : R * R -> R, map (fun z => h (g z)) (uniform b a (2 ^ k)) = rev (map (fun z => h (g z)) (uniform a b (2 ^ k)))).
  { intro h. rewrite <- map_rev. revert U. generalize (uniform b a (2 ^ k)), (rev (uniform a b (2 ^ k))). intros l l' U.
    induction U as [|x y l l' E U IH]; [reflexivity|]. cbn. rewrite (PG _ _ E), IH. reflexivity. }
  rewrite !M. rewrite !(HR k) by (rewrite map_length, uniform_length; reflexivity). reflexivity.
Qed.

Lemma quad_reversal romb f df prec fuel fuel' order a b v w : (forall k l dx, List.length l = S (2 ^ k) -> romb (rev l) dx = romb l dx) ->
  proper f -> proper df ->
  quad_line romb f (Some df) prec fuel order a b = QuadOk [] v ->
  quad_line romb f (Some df) prec fuel' order b a = QuadOk [] w ->
  w = neg_cR v.
Proof.
  intros HR PF PD H1 H2.
  pose proof (integrand_proper f df order PF PD) as PG.
  destruct (quad_value _ _ _ _ _ _ _ _ _ PF PD H1) as (s & u & S1 & ->).
  destruct (quad_value _ _ _ _ _ _ _ _ _ PF PD H2) as (s' & u' & S2 & ->).
  assert (S3 : stops_at (rule romb (integrand f df order) a b) s' u').
  { destruct S2 as (A1 & A2 & A3). split; [exact A1|].
    split; [intros k K1 K2; specialize (A2 k K1 K2); rewrite !(rule_rev romb _ a b _ HR PG) in A2; exact A2|].
    rewrite !(rule_rev romb _ a b _ HR PG) in A3. exact A3. }
  destruct (stops_at_unique _ _ _ _ _ S1 S3) as [-> ->].
  rewrite (rule_rev romb _ a b _ HR PG). unfold line_value, scale, neg_cR, times. rewrite (distance_sym b a). cbn [fst snd].
  rewrite !Q2R_minus. f_equal; unfold Rdiv; ring.
Qed.

(** ** Exact on constants *)
Lemma quad_constant romb f df prec fuel order a b c v :
  (forall k x dx, romb (repeat x (S (2 ^ k))) dx = (x * (INR (2 ^ k) * dx))%R) ->
  proper f -> proper df -> (forall z, integrand f df order z = c) -> ~ ceq a b ->
  quad_line romb f (Some df) prec fuel order a b = QuadOk [] v ->
  v = cR_mul (to_cR (re b - re a, im b - im a)%Q) (snd c, - fst c)%R.
Proof.
  intros HR PF PD HC NE H.
  destruct (quad_value _ _ _ _ _ _ _ _ _ PF PD H) as (s & u & (S1 & S2 & S3) & ->).
  assert (RV : forall k, rule romb (integrand f df order) a b k = (fst c * distance a b, snd c * distance a b)%R).
  { intro k. unfold rule.
    assert (M : forall h : R * R -> R, map (fun z => h (integrand f df order z)) (uniform a b (2 ^ k)) = repeat (h c) (S (2 ^ k))).
    { intro h. rewrite <- (uniform_length a b (2 ^ k)). generalize (uniform a b (2 ^ k)). intro l.
      induction l as [|z l IH]; [reflexivity|]. cbn. rewrite HC, IH. reflexivity. }
    rewrite (M fst), (M snd). rewrite !HR.
    assert (INR (2 ^ k) <> 0)%R by (apply not_0_INR; pose proof (pow2_pos k); lia).
    f_equal; field; assumption. }
  assert (CL : forall k, close_to (rule romb (integrand f df order) a b k) (rule romb (integrand f df order) a b (k - 1))).
  { intro k. unfold close_to. rewrite !RV. cbn [fst snd]. rewrite !Rminus_eq_0, Rabs_R0. split; Lra.lra. }
  assert (s = 11%nat).
  { destruct (Nat.eq_dec s 11) as [|N]; [assumption|]. exfalso. apply (S2 11%nat); [lia|lia|apply CL]. }
  subst s. rewrite RV. unfold length_factor. cbn [Nat.leb]. unfold line_value, scale, times, cR_mul, to_cR. cbn [fst snd re im].
  assert (D : distance a b <> 0%R).
  { unfold distance. intro C. apply sqrt_eq_0 in C.
    2:{ pose proof (Rle_0_sqr (Q2R (re b - re a))). pose proof (Rle_0_sqr (Q2R (im b - im a))). Lra.lra. }
    apply Rplus_sqr_eq_0 in C as [C1 C2]. apply NE.
    assert (Z0 : Q2R 0 = 0%R) by (unfold Q2R; cbn; Lra.lra).
    rewrite <- Z0 in C1, C2. apply eqR_Qeq in C1, C2. split; Lqa.lra. }
  f_equal; field; exact D.
Qed.

(** ** Romberg's rule *)
Lemma Rsum_perm l l' : Permutation l l' -> Rsum l = Rsum l'.
Proof.
  induction 1 as [|x l l' H IH|x y l|l l' l'' H1 I1 H2 I2]; [reflexivity| | |congruence].
  - rewrite !Rsum_cons, IH. reflexivity.
  - rewrite !Rsum_cons. Lra.lra.
Qed.

Lemma mirror_seq n : Permutation (seq 1 (n - 1)) (map (fun m => n - m)%nat (seq 1 (n - 1))).
Proof.
  assert (E : map (fun m => n - m)%nat (seq 1 (n - 1)) = rev (seq 1 (n - 1))).
  { symmetry. apply nth_ext with (d := 0%nat) (d' := (n - 0)%nat).
    - rewrite rev_length, map_length. reflexivity.
    - intros i Hi. rewrite rev_length, seq_length in Hi. rewrite rev_nth by (rewrite seq_length; lia).
      rewrite seq_length, (map_nth (fun m => n - m)%nat), !seq_nth by lia. lia. }
  rewrite E. apply Permutation_rev.
Qed.

Lemma trapezoid_rev y dx k i : List.length y = S (2 ^ k) -> (i <= k)%nat -> trapezoid (rev y) dx k i = trapezoid y dx k i.
Proof.
  intros L Hi. unfold trapezoid.
  assert (NR : forall m, (m <= 2 ^ k)%nat -> nth m (rev y) 0%R = nth (2 ^ k - m) y 0%R).
  { intros m Hm. rewrite rev_nth by lia. f_equal. lia. }
  assert (PW : (2 ^ k = 2 ^ i * 2 ^ (k - i))%nat) by (rewrite <- Nat.pow_add_r; f_equal; lia).
  rewrite (NR 0%nat) by lia. rewrite (NR (2 ^ k)%nat) by lia. rewrite Nat.sub_0_r, Nat.sub_diag.
  assert (E : Rsum (map (fun m => nth (m * 2 ^ (k - i)) (rev y) 0%R) (seq 1 (2 ^ i - 1))) =
              Rsum (map (fun m => nth (m * 2 ^ (k - i)) y 0%R) (seq 1 (2 ^ i - 1)))).
  { transitivity (Rsum (map (fun m => nth (m * 2 ^ (k - i)) y 0%R) (map (fun m => 2 ^ i - m)%nat (seq 1 (2 ^ i - 1))))).
    - rewrite map_map. f_equal. apply map_ext_in. intros m Hm. apply in_seq in Hm.
      rewrite NR by (rewrite PW; apply Nat.mul_le_mono_r; lia). rewrite Nat.mul_sub_distr_r, <- PW. reflexivity.
    - apply Rsum_perm, Permutation_map. symmetry. apply mirror_seq. }
  rewrite E. rewrite (Rplus_comm (nth (2 ^ k) y 0%R)). reflexivity.
Qed.

Lemma extrapolate_rev y dx k : List.length y = S (2 ^ k) -> forall j i, (i <= k)%nat -> extrapolate (rev y) dx k i j = extrapolate y dx k i j.
Proof.
  intro L. induction j as [|j IH]; intros i Hi; cbn [extrapolate]; [apply trapezoid_rev; assumption|].
  rewrite !IH by lia. reflexivity.
Qed.

Lemma romberg_rev k y dx : List.length y = S (2 ^ k) -> romberg (rev y) dx = romberg y dx.
Proof.
  intros L. unfold romberg. rewrite rev_length, L. replace (S (2 ^ k) - 1)%nat with (2 ^ k)%nat by lia.
  rewrite Nat.log2_pow2 by lia. apply extrapolate_rev; [exact L|lia].
Qed.

Lemma nth_repeat_in (x : R) m i : (i < m)%nat -> nth i (repeat x m) 0%R = x.
Proof. revert i. induction m as [|m IH]; intros i H; [lia|]. destruct i; [reflexivity|]. cbn. apply IH. lia. Qed.

Lemma Rsum_repeat x n : Rsum (repeat x n) = (INR n * x)%R.
Proof. induction n as [|n IH]; [unfold Rsum; cbn; Lra.lra|]. cbn [repeat]. rewrite Rsum_cons, IH, S_INR. ring. Qed.

Lemma romberg_const k x dx : romberg (repeat x (S (2 ^ k))) dx = (x * (INR (2 ^ k) * dx))%R.
Proof.
  unfold romberg. rewrite repeat_length. replace (S (2 ^ k) - 1)%nat with (2 ^ k)%nat by lia. rewrite Nat.log2_pow2 by lia.
  assert (T : forall i, (i <= k)%nat -> trapezoid (repeat x (S (2 ^ k))) dx k i = (x * (INR (2 ^ k) * dx))%R).
  { intros i Hi. unfold trapezoid.
    assert (PW : (2 ^ k = 2 ^ i * 2 ^ (k - i))%nat) by (rewrite <- Nat.pow_add_r; f_equal; lia).
    rewrite !nth_repeat_in by lia.
    assert (E : map (fun m => nth (m * 2 ^ (k - i)) (repeat x (S (2 ^ k))) 0%R) (seq 1 (2 ^ i - 1)) = repeat x (2 ^ i - 1)).
    { rewrite <- (seq_length (2 ^ i - 1) 1) at 2.
      assert (G : forall l, (forall m, In m l -> (m < 2 ^ i)%nat) ->
        map (fun m => nth (m * 2 ^ (k - i)) (repeat x (S (2 ^ k))) 0%R) l = repeat x (List.length l)).
      { induction l as [|m l IH]; intro HL; [reflexivity|].
        change (repeat x (List.length (m :: l))) with (x :: repeat x (List.length l)). cbn [map].
        rewrite IH by (intros; apply HL; right; assumption). f_equal. apply nth_repeat_in.
        assert (m < 2 ^ i)%nat by (apply HL; left; reflexivity). pose proof (pow2_pos (k - i)).
        rewrite PW. nia. }
      apply G. intros m Hm. apply in_seq in Hm. pose proof (pow2_pos i). lia. }
    rewrite E, Rsum_repeat. rewrite minus_INR by apply pow2_pos. rewrite PW, mult_INR. cbn [INR]. field. }
  assert (G : forall j i, (i <= k)%nat -> extrapolate (repeat x (S (2 ^ k))) dx k i j = (x * (INR (2 ^ k) * dx))%R).
  { induction j as [|j IH]; intros i Hi; cbn [extrapolate]; [apply T, Hi|]. rewrite !IH by lia.
    unfold Rdiv. rewrite Rminus_eq_0. ring. }
  apply G. lia.
Qed.

(** ** Functions without zeros *)
Lemma filter_none {A} (p : A -> bool) l : (forall x, p x = false) -> filter p l = [].
Proof. intro H. induction l as [|x l IH]; [reflexivity|]. cbn. rewrite H. exact IH. Qed.

Lemma gen_none fz prec fuel a b m : (forall z, fz z = false) -> genFuncArr fz prec (S fuel) a b m = Some (linspaceC a b m, []).
Proof. intro H. unfold genFuncArr. cbn [shift_loop]. rewrite filter_none by exact H. reflexivity. Qed.

Lemma found_none fz g romb small prec d : (forall z, fz z = false) ->
  forall fuel s c s', quad_loop fz g romb small prec d fuel s = QuadDone c s' -> q_found s' = q_found s.
Proof.
  intro HZ. induction fuel as [|fuel IH]; intros s c s' H; cbn [quad_loop] in H.
  - destruct (Nat.leb (samplePts s) MAX_SAMPLE_POINTS); [discriminate|]. injection H as <- <-. reflexivity.
  - destruct (Nat.leb (samplePts s) MAX_SAMPLE_POINTS); [|injection H as <- <-; reflexivity].
    destruct (Nat.leb (EXP_SAMPLE_POINTS + 2) (samplePts s)).
    + destruct (genFuncArr _ _ _ _ _ _) as [[nz fd]|] eqn:G; [|discriminate].
      assert (fd = []) as -> by (destruct fuel; [discriminate|]; rewrite gen_none in G by exact HZ; congruence).
      destruct (mergeArray (q_z s) nz) as [zA|]; [|discriminate].
      destruct (mergeArray (q_func s) _) as [fA|]; [|discriminate].
      destruct (small _ && small _).
      * injection H as <- <-. apply app_nil_r.
      * apply IH in H. rewrite H. apply app_nil_r.
    + destruct (genFuncArr _ _ _ _ _ _) as [[nz fd]|] eqn:G; [|discriminate].
      assert (fd = []) as -> by (destruct fuel; [discriminate|]; rewrite gen_none in G by exact HZ; congruence).
      destruct (small _ && small _).
      * injection H as <- <-. apply app_nil_r.
      * apply IH in H. rewrite H. apply app_nil_r.
Qed.

Lemma init_sized fz g romb prec d fuel a b s : quad_init fz g romb prec d fuel a b = Some s -> sized g s.
Proof.
  unfold quad_init. intro H. destruct (genFuncArr _ _ _ _ _ _) as [[z fd]|] eqn:GF; [|discriminate].
  assert (E : s = mkQuad EXP_SAMPLE_POINTS a b z (map g z) (romb (map fst (map g z)) (d / INR (2 ^ EXP_SAMPLE_POINTS))%R)
       (romb (map snd (map g z)) (d / INR (2 ^ EXP_SAMPLE_POINTS))%R) fd) by congruence.
  clear H. subst s. unfold sized. cbn [samplePts q_z q_func].
  apply genFuncArr_length in GF. rewrite GF. rewrite Nat.add_1_r.
  split; [unfold EXP_SAMPLE_POINTS; lia|]. split; [unfold EXP_SAMPLE_POINTS; lia|]. split; reflexivity.
Qed.

Lemma quad_sampling fz g romb small prec a b fuel :
  (forall c s, quad_iterate fz g romb small prec (distance_of a b) fuel a b = QuadDone c s ->
     (10 <= samplePts s <= 22)%nat /\ List.length (q_z s) = (2 ^ samplePts s + 1)%nat /\ q_func s = map g (q_z s)) /\
  (forall e, quad_iterate fz g romb small prec (distance_of a b) fuel a b <> QuadErr e).
Proof.
  unfold quad_iterate. destruct (quad_init _ _ _ _ _ _ _ _) as [s0|] eqn:E; [|split; discriminate].
  destruct (loop_sized fz g romb small prec a b fuel s0 (init_sized _ _ _ _ _ _ _ _ _ E)) as [H1 H2].
  split; [|exact H2]. intros c s H. destruct (H1 c s H) as ((A & B & C & D) & _).
  split; [lia|]. split; [lia|exact D].
Qed.

Lemma quad_terminates romb f df prec order a b :
  (forall c e m, exists fuel, genFuncArr (fun z => is_zero_R (f z)) prec fuel c e m <> None) ->
  exists fuel, forall fuel', (fuel <= fuel')%nat -> quad_line romb f df prec fuel' order a b <> QuadHangs.
Proof.
  intro HG. destruct df as [df|]; [|exists 0%nat; discriminate].
  destruct (HG a b (2 ^ EXP_SAMPLE_POINTS + 1)%nat) as [F1 H1].
  destruct (genFuncArr (fun z => is_zero_R (f z)) prec F1 a b (2 ^ EXP_SAMPLE_POINTS + 1)) as [r|] eqn:E1; [|congruence].
  assert (I : exists s0, forall fuel', (F1 <= fuel')%nat ->
    quad_init (fun z => is_zero_R (f z)) (integrand f df order) romb prec (distance_of a b) fuel' a b = Some s0).
  { destruct r as [z fd]. eexists. intros fuel' L. unfold quad_init. rewrite (genFuncArr_mono _ _ _ _ _ _ _ _ L E1). reflexivity. }
  destruct I as [s0 I].
  destruct (loop_terminates _ (integrand f df order) romb below_thousandth prec a b HG 12 s0) as [F2 H2].
  - pose proof (init_sized _ _ _ _ _ _ _ _ _ (I F1 (le_n _))) as (A & _). lia.
  - exact (init_sized _ _ _ _ _ _ _ _ _ (I F1 (le_n _))).
  - exists (Nat.max F1 F2). intros fuel' L. unfold quad_line, quad_iterate. rewrite I by lia.
    specialize (H2 fuel' ltac:(lia)). destruct (quad_loop _ _ _ _ _ _ _ _); [discriminate|discriminate|congruence].
Qed.

Lemma quad_runs romb f df prec order a b : (forall z, is_zero_R (f z) = false) ->
  exists fuel v, quad_line romb f (Some df) prec fuel order a b = QuadOk [] v.
Proof.
  intro HZ. destruct (quad_terminates romb f (Some df) prec order a b) as [fuel HT].
  { intros c e m. exists 1%nat. rewrite gen_none by exact HZ. discriminate. }
  exists (S fuel). specialize (HT (S fuel) ltac:(lia)). unfold quad_line in *.
  destruct (quad_iterate _ _ _ _ _ _ _ _ _) as [c s|e|] eqn:E; [| |congruence].
  - assert (F : q_found s = []).
    { unfold quad_iterate in E. destruct (quad_init _ _ _ _ _ _ _ _) as [s0|] eqn:I; [|discriminate].
      apply (found_none _ _ _ _ _ _ HZ) in E. rewrite E. unfold quad_init in I. rewrite gen_none in I by exact HZ.
      assert (X : Some (q_found s0) = Some []) by (change (Some (q_found s0)) with (option_map (fun x => q_found x) (Some s0)); rewrite <- I; reflexivity).
      congruence. }
    rewrite F. eexists. reflexivity.
  - exfalso. exact (proj2 (quad_sampling _ _ _ _ _ _ _ _) e E).
Qed.

(** A rule that does not converge. *)
Lemma quad_length_wrong :
  exists romb f df prec fuel order a b v k, proper f /\ proper df /\
  quad_line romb f (Some df) prec fuel order a b = QuadOk [] v /\ (12 < k)%nat /\
  v = scale (1 - 1 / INR (2 ^ (k - 1))) (line_value a b (rule romb (integrand f df order) a b k)) /\
  v <> line_value a b (rule romb (integrand f df order) a b k).
Proof.
  set (r := fun (l : list R) (dx : R) => INR (List.length l)).
  set (one := fun _ : cplx => (1, 0)%R).
  destruct (quad_runs r one one (5, 5) 0 (0, 0)%Q (1, 0)%Q) as (fuel & v & E).
  { intro z. unfold is_zero_R, one. cbn [fst snd]. destruct (Req_EM_T 1 0) as [C|]; [Lra.lra|reflexivity]. }
  assert (P1 : proper one) by (intros ? ? ?; reflexivity).
  destruct (quad_value _ _ _ _ _ _ _ _ _ P1 P1 E) as (s & u & (S1 & S2 & S3) & V).
  assert (RV : forall k, rule r (integrand one one 0) (0, 0)%Q (1, 0)%Q k = (INR (S (2 ^ k)), INR (S (2 ^ k)))).
  { intro k. unfold rule, r. rewrite !map_length, uniform_length. reflexivity. }
  assert (NC : forall k, (1 <= k)%nat -> ~ close_to (rule r (integrand one one 0) (0, 0)%Q (1, 0)%Q k)
      (rule r (integrand one one 0) (0, 0)%Q (1, 0)%Q (k - 1))).
  { intros k K [C _]. rewrite !RV in C. cbn [fst] in C. destruct k as [|k]; [lia|].
    replace (S k - 1)%nat with k in C by lia.
    rewrite <- minus_INR in C by (pose proof (Nat.pow_le_mono_r 2 k (S k) ltac:(lia) ltac:(lia)); lia).
    rewrite Nat.pow_succ_r' in C. replace (S (2 * 2 ^ k) - S (2 ^ k))%nat with (2 ^ k)%nat in C by lia.
    rewrite Rabs_pos_eq in C by apply pos_INR.
    pose proof (pow2_pos k) as PP. apply le_INR in PP. change (INR 1) with 1%R in PP. Lra.lra. }
  assert (SU : (12 < s)%nat /\ u = s).
  { destruct S3 as [[S3 _]|(S3 & S4 & _)]; [exfalso; apply (NC s); [lia|exact S3]|lia]. }
  destruct SU as [SL ->].
  assert (L : length_factor s = (1 - 1 / INR (2 ^ (s - 1)))%R).
  { unfold length_factor. destruct (Nat.leb s 12) eqn:LE; [apply Nat.leb_le in LE; lia|reflexivity]. }
  rewrite L in V. clear L.
  exists r, one, one, (5, 5), fuel, 0%nat, (0, 0)%Q, (1, 0)%Q, v, s.
  split; [exact P1|]. split; [exact P1|]. split; [exact E|]. split; [exact SL|]. split; [exact V|].
  assert (HB : (0 < 1 / INR (2 ^ (s - 1)))%R).
  { apply Rmult_lt_0_compat; [Lra.lra|]. apply Rinv_0_lt_compat, lt_0_INR. pose proof (pow2_pos (s - 1)). lia. }
  clear S1 S2 S3 E. set (I22 := rule r (integrand one one 0) (0, 0)%Q (1, 0)%Q s) in *.
  assert (PX : (0 <= fst I22)%R) by (unfold I22; rewrite RV; apply pos_INR).
  assert (PY : (0 < snd I22)%R).
  { unfold I22. rewrite RV. apply lt_0_INR. lia. }
  clearbody I22. set (Y := (1 / INR (2 ^ (s - 1)))%R) in *. clearbody Y.
  rewrite V. intro C. unfold line_value, scale, times, cR_mul in C. cbn [fst snd] in C.
  assert (D : distance (0, 0)%Q (1, 0)%Q = 1%R).
  { unfold distance. cbn [re im fst snd]. assert (Q2R (1 - 0) = 1%R) as -> by (unfold Q2R; cbn; Lra.lra).
    assert (Q2R (0 - 0) = 0%R) as -> by (unfold Q2R; cbn; Lra.lra). unfold Rsqr.
    replace (1 * 1 + 0 * 0)%R with 1%R by ring. apply sqrt_1. }
  rewrite D in C. cbn [re im fst snd] in C.
  assert (E1 : Q2R (1 - 0) = 1%R) by (unfold Q2R; cbn; Lra.lra).
  assert (E0 : Q2R (0 - 0) = 0%R) by (unfold Q2R; cbn; Lra.lra).
  rewrite E1, E0 in C. injection C as C _.
  assert (Z : (Y * snd I22 = 0)%R) by Lra.lra.
  apply Rmult_integral in Z as [Z|Z]; Lra.lra.
Qed.
