(** Floating point: decimal rounding of doubles and the rounding container. *)
From Coq Require Import Reals Qreals.
From Flocq Require Import Core.
From Verif Require Import PyBase Rounding_Model Rounding_Spec Rounding_Proofs Container_Model Container_Spec
  Float_Model Float_Spec Float_Proofs Float_Proofs2 Float_Proofs4 FloatGrid_Proofs Container_Proofs FloatCont_Model FloatCont_Spec.
From Coq Require Import Lra.
Open Scope Z_scope.

(** ** Powers of ten are not powers of two *)
Lemma pow2_mod5 (k : nat) : 2 ^ Z.of_nat k mod 5 <> 0.
Proof.
  induction k as [|k IH]; [discriminate|]. rewrite Nat2Z.inj_succ, Z.pow_succ_r by lia.
  intro C. apply IH. rewrite Z.mul_mod in C by lia. change (2 mod 5) with 2 in C.
  pose proof (Z.mod_pos_bound (2 ^ Z.of_nat k) 5 ltac:(lia)).
  set (m := 2 ^ Z.of_nat k mod 5) in *. assert (m = 0 \/ m = 1 \/ m = 2 \/ m = 3 \/ m = 4) as [K|[K|[K|[K|K]]]] by lia;
    rewrite K in *; try reflexivity; discriminate.
Qed.
Lemma pow10_mod5 (n : Z) : 0 < n -> 10 ^ n mod 5 = 0.
Proof.
  intro H. replace n with (Z.succ (n - 1)) by lia. rewrite Z.pow_succ_r by lia.
  replace (10 * 10 ^ (n - 1)) with (2 * 10 ^ (n - 1) * 5) by ring. apply Z.mod_mul. lia.
Qed.
Lemma Q2R_pow10_nonneg n : 0 <= n -> Q2R (pow10 n) = IZR (10 ^ n).
Proof.
  intro H. unfold pow10. rewrite <- (Z2Nat.id n) by exact H. rewrite <- Q2R_Z. apply Qeq_eqR.
  rewrite Zpower_Qpower by lia. reflexivity.
Qed.
Lemma pow10_not_pow2 n c : Q2R (pow10 n) = bpow radix2 c -> n = 0.
Proof.
  intro H.
  assert (K : forall n c, 0 < n -> Q2R (pow10 n) <> bpow radix2 c).
  { clear. intros n c Hn C. rewrite Q2R_pow10_nonneg in C by lia.
    destruct (Z_lt_le_dec c 0) as [L|L].
    - assert (B : (bpow radix2 c < bpow radix2 0)%R) by (apply bpow_lt; exact L).
      change (bpow radix2 0) with (IZR 1) in B. rewrite <- C in B. apply lt_IZR in B.
      pose proof (Z.pow_pos_nonneg 10 n ltac:(lia) ltac:(lia)). lia.
    - rewrite <- IZR_Zpower in C by exact L. apply eq_IZR in C. change (radix2 : Z) with 2 in C.
      pose proof (pow10_mod5 n Hn) as M. rewrite C in M. rewrite <- (Z2Nat.id c) in M by exact L.
      exact (pow2_mod5 _ M). }
  destruct (Z.lt_trichotomy n 0) as [L|[L|L]]; [|exact L|exfalso; exact (K n c L H)].
  exfalso. apply (K (- n) (- c)); [lia|].
  rewrite bpow_opp, <- H. pose proof (pow10_inv n) as I. apply Qeq_eqR in I. rewrite Q2R_mult in I.
  pose proof (pow10_pos n) as P. apply Qlt_Rlt in P. rewrite RMicromega.Q2R_0 in P.
  replace (Q2R 1) with 1%R in I by (unfold Q2R; cbn; field).
  apply (Rmult_eq_reg_l (Q2R (pow10 n))); [|lra]. rewrite I. field. lra.
Qed.

(** ** Ties between neighbouring doubles *)
Lemma tie_gap (d x y : R) : gf64 x -> y = round radix2 (FLT_exp (-1074) 53) ZnearestE d -> ~ gf64 d ->
  (x <> y)%R -> (Rabs (y - d) = Rabs (x - d))%R ->
  exists c m, (Rabs (x - y) = bpow radix2 c /\ x = IZR m * bpow radix2 c)%R.
Proof.
  intros Gx Ey Gd Nxy Hd. pose proof valid64 as V.
  assert (D0 : d <> 0%R) by (intros ->; apply Gd, generic_format_0).
  set (fe := FLT_exp (-1074) 53) in *.
  pose proof (round_UP_DN_ulp radix2 fe d Gd) as HU.
  destruct (round_DN_pt radix2 fe d) as (GD & LD & MD).
  destruct (round_UP_pt radix2 fe d) as (GU & LU & MU).
  set (DN := round radix2 fe Zfloor d) in *. set (UP := round radix2 fe Zceil d) in *.
  assert (NN := round_N_pt radix2 fe (fun n => negb (Z.even n)) d). fold fe in Ey. rewrite <- Ey in NN.
  destruct NN as [Gy Ny].
  assert (LD' : (DN < d)%R) by (destruct LD as [LD|LD]; [exact LD|rewrite LD in GD; contradiction]).
  assert (LU' : (d < UP)%R) by (destruct LU as [LU|LU]; [exact LU|rewrite <- LU in GU; contradiction]).
  pose proof (Ny DN GD) as N1. pose proof (Ny UP GU) as N2.
  assert (C : exists m, DN = (IZR m * bpow radix2 (cexp radix2 fe d))%R).
  { exists (Zfloor (scaled_mantissa radix2 fe d)). reflexivity. }
  destruct C as (m & Cm). rewrite ulp_neq_0 in HU by exact D0. set (c := cexp radix2 fe d) in *.
  pose proof (bpow_gt_0 radix2 c) as P.
  assert (Lx : (x <> d)%R) by (intros ->; contradiction).
  assert (Ly : (y <> d)%R) by (intros ->; contradiction).
  destruct (Rtotal_order x d) as [X|[X|X]]; [|contradiction|].
  - destruct (Rtotal_order y d) as [Y|[Y|Y]]; [|contradiction|].
    { exfalso. rewrite !Rabs_left in Hd by lra. apply Nxy. lra. }
    rewrite (Rabs_right (y - d)) in * by lra. rewrite (Rabs_left (x - d)) in * by lra.
    rewrite (Rabs_left (DN - d)) in N1 by lra. rewrite (Rabs_right (UP - d)) in N2 by lra.
    pose proof (MD x Gx ltac:(lra)) as XD. pose proof (MU y Gy ltac:(lra)) as YU.
    exists c, m. split; [rewrite Rabs_left by lra; lra|]. lra.
  - destruct (Rtotal_order y d) as [Y|[Y|Y]]; [|contradiction|].
    2:{ exfalso. rewrite !Rabs_right in Hd by lra. apply Nxy. lra. }
    rewrite (Rabs_left (y - d)) in * by lra. rewrite (Rabs_right (x - d)) in * by lra.
    rewrite (Rabs_left (DN - d)) in N1 by lra. rewrite (Rabs_right (UP - d)) in N2 by lra.
    pose proof (MU x Gx ltac:(lra)) as XU. pose proof (MD y Gy ltac:(lra)) as YD.
    exists c, (m + 1). rewrite plus_IZR. split; [rewrite Rabs_right by lra; lra|]. nra.
Qed.

(** ** Rounding a double to decimals *)
Lemma py_round_key n x : is_double x ->
  (rnd64 (round_dec n x) == x)%Q \/
  (Qabs (rnd64 (round_dec n x) - round_dec n x) < (1 # 2) * pow10 (- n))%Q.
Proof.
  intro Hx. pose proof (round_dec_error n x) as E. pose proof (round_dec_multiple n x) as M.
  set (d := round_dec n x) in *. pose proof (rnd64_nearest d x Hx) as N.
  destruct (Qlt_le_dec (Qabs (rnd64 d - d)) ((1 # 2) * pow10 (- n))) as [L|L]; [right; exact L|left].
  apply is_double_iff, representable64 in Hx.
  apply eqR_Qeq. apply Qle_Rle in E, N, L.
  rewrite Q2R_mult in E, L. rewrite !Q2R_abs, !Q2R_minus in *.
  assert (H2 : Q2R (1 # 2) = (/ 2)%R) by (unfold Q2R; cbn; lra). rewrite H2 in *.
  pose proof (pow10_pos (- n)) as P. apply Qlt_Rlt in P. rewrite RMicromega.Q2R_0 in P.
  set (t := Q2R (pow10 (- n))) in *.
  destruct (Req_dec (Q2R (rnd64 d)) (Q2R x)) as [K|K]; [exact K|exfalso].
  assert (T1 : Rabs (Q2R (rnd64 d) - Q2R d) = (/ 2 * t)%R) by lra.
  assert (T2 : Rabs (Q2R x - Q2R d) = (/ 2 * t)%R) by lra.
  assert (Gd : ~ gf64 (Q2R d)).
  { intro C. apply representable64 in C. unfold representable in C. apply Qeq_eqR in C.
    rewrite C in T1. rewrite Rminus_diag_eq in T1 by reflexivity. rewrite Rabs_R0 in T1. lra. }
  destruct (tie_gap (Q2R d) (Q2R x) (Q2R (rnd64 d)) Hx (rnd64_flocq d) Gd ltac:(congruence) ltac:(congruence))
    as (c & m & G1 & G2).
  assert (G3 : bpow radix2 c = t).
  { rewrite <- G1. revert T1 T2 K. unfold Rabs.
    repeat match goal with |- context [Rcase_abs ?a] => destruct (Rcase_abs a) end; intros; lra. }
  assert (n = 0).
  { unfold t in G3. symmetry in G3. apply pow10_not_pow2 in G3. lia. }
  subst n. destruct M as (k & M). apply Qeq_eqR in M. rewrite Q2R_mult, Q2R_Z in M. fold t in M.
  assert (T0 : t = 1%R) by (unfold t, Q2R; cbn; field).
  rewrite T0 in *. rewrite G3 in G2. rewrite M, G2 in T2.
  rewrite Rmult_1_r, Rmult_1_r, <- minus_IZR, <- abs_IZR, Rmult_1_r in T2.
  assert (T3 : IZR (2 * Z.abs (m - k)) = IZR 1) by (rewrite mult_IZR, T2; lra).
  apply eq_IZR in T3. lia.
Qed.

Lemma rnd64_Qred x : Qred (rnd64 x) = rnd64 x.
Proof.
  unfold rnd64. destruct (Qeq_bool x 0); [reflexivity|]. cbv zeta. apply Qred_complete, Qred_correct.
Qed.
Lemma rnd64_compat x y : (x == y)%Q -> rnd64 x = rnd64 y.
Proof.
  intro H. rewrite <- (rnd64_Qred x), <- (rnd64_Qred y). apply Qred_complete.
  apply (rnd_eq rnd64 rounding64), H.
Qed.
Lemma rnd64_double x : is_double (rnd64 x).
Proof. apply is_double_iff, (rnd_idem _ rounding64). Qed.
Lemma rnd64_fix x : is_double x -> (rnd64 x == x)%Q.
Proof. intro H. apply is_double_iff in H. exact H. Qed.

Lemma round_dec_close n y (k : Z) : (Qabs (y - inject_Z k * pow10 (- n)) < (1 # 2) * pow10 (- n))%Q ->
  (round_dec n y == inject_Z k * pow10 (- n))%Q.
Proof.
  intro H. unfold round_dec. rewrite Qred_correct.
  assert (E : round_half_even (y * pow10 n) = k).
  { apply round_half_even_close. pose proof (pow10_pos n) as P.
    setoid_replace (y * pow10 n - inject_Z k)%Q with ((y - inject_Z k * pow10 (- n)) * pow10 n)%Q.
    - rewrite Qabs_Qmult. rewrite (Qabs_pos (pow10 n)) by (apply Qlt_le_weak, P).
      apply (Qmult_lt_r _ _ (pow10 n) P) in H.
      eapply Qlt_le_trans; [exact H|]. rewrite <- Qmult_assoc.
      setoid_replace (pow10 (- n) * pow10 n)%Q with (pow10 n * pow10 (- n))%Q by ring.
      rewrite pow10_inv. discriminate.
    - rewrite <- (unscale_scale n (inject_Z k)) at 1. ring. }
  rewrite E. reflexivity.
Qed.

Lemma round_dec_py n x : is_double x -> round_dec n (py_round n x) = round_dec n x.
Proof.
  intro H. unfold py_round. destruct (py_round_key n x H) as [K|K].
  - apply round_dec_compat, K.
  - rewrite <- (round_dec_Qred n x) at 2. rewrite <- (round_dec_Qred n (rnd64 _)). apply Qred_complete.
    destruct (round_dec_multiple n x) as (k & M).
    transitivity (inject_Z k * pow10 (- n))%Q; [|symmetry; exact M].
    apply round_dec_close. rewrite <- M. exact K.
Qed.
Lemma py_round_stable n x : is_double x -> py_round n (py_round n x) = py_round n x.
Proof. intro H. unfold py_round at 1. rewrite round_dec_py by exact H. reflexivity. Qed.
Lemma py_round_inj n x y : is_double x -> is_double y ->
  (py_round n x = py_round n y <-> round_dec n x = round_dec n y).
Proof.
  intros Hx Hy. split; intro H.
  - rewrite <- (round_dec_py n x Hx), <- (round_dec_py n y Hy), H. reflexivity.
  - unfold py_round. rewrite H. reflexivity.
Qed.
Lemma py_round_error n x : is_double x -> (Qabs (py_round n x - x) <= pow10 (- n))%Q.
Proof.
  intro H. unfold py_round. set (d := round_dec n x).
  pose proof (rnd64_nearest d x H) as N. pose proof (round_dec_error n x) as E. fold d in E.
  setoid_replace (rnd64 d - x)%Q with ((rnd64 d - d) + (d - x))%Q by ring.
  eapply Qle_trans; [apply Qabs_triangle|].
  rewrite Qabs_Qminus in E. rewrite (Qabs_Qminus x d) in N.
  Lqa.lra.
Qed.

(** ** The container *)
Notation to_double := as_doubles.
Definition rounded_double (p : Z * Z) (s : root) : Prop := exists r, double_root r /\ s = roundRoot r p.

Lemma froundRoot_py r p : froundRoot py_round r p = to_double (roundRoot r p).
Proof. reflexivity. Qed.

Lemma Qeq_bool_py n x y : is_double x -> is_double y ->
  Qeq_bool (rnd64 (round_dec n x)) (rnd64 (round_dec n y)) = Qeq_bool (round_dec n x) (round_dec n y).
Proof.
  intros Hx Hy. apply eq_true_iff_eq. rewrite !Qeq_bool_iff. split; intro H.
  - assert (E : rnd64 (round_dec n x) = rnd64 (round_dec n y)).
    { rewrite <- (rnd64_Qred (round_dec n x)), <- (rnd64_Qred (round_dec n y)). apply Qred_complete, H. }
    apply (py_round_inj n x y Hx Hy) in E. rewrite E. reflexivity.
  - apply (rnd_eq rnd64 rounding64), H.
Qed.
Lemma root_eqb_to_double p a b : rounded_double p a -> rounded_double p b ->
  root_eqb (to_double a) (to_double b) = root_eqb a b.
Proof.
  intros (r & [R1 R2] & ->) (s & [S1 S2] & ->).
  unfold root_eqb, ceqb, as_doubles, roundRoot. cbn [re im fst snd].
  rewrite !Qeq_bool_py by assumption. reflexivity.
Qed.
Lemma set_mem_to_double p k s : rounded_double p k -> Forall (rounded_double p) s ->
  set_mem (to_double k) (map to_double s) = set_mem k s.
Proof.
  intros Hk. induction 1 as [|a s Ha Hs IH]; [reflexivity|]. cbn [map set_mem existsb].
  rewrite (root_eqb_to_double p k a Hk Ha). unfold set_mem in IH. rewrite IH. reflexivity.
Qed.
Lemma set_add_to_double p k s : rounded_double p k -> Forall (rounded_double p) s ->
  set_add (to_double k) (map to_double s) = map to_double (set_add k s).
Proof.
  intros Hk Hs. unfold set_add. rewrite (set_mem_to_double p k s Hk Hs).
  destruct (set_mem k s); [reflexivity|]. rewrite map_app. reflexivity.
Qed.
Lemma set_remove_to_double p k s : rounded_double p k -> Forall (rounded_double p) s ->
  set_remove (to_double k) (map to_double s) = map to_double (set_remove k s).
Proof.
  intros Hk. induction 1 as [|a s Ha Hs IH]; [reflexivity|]. unfold set_remove in *. cbn [map filter].
  rewrite (root_eqb_to_double p k a Hk Ha). destruct (root_eqb k a); cbn [negb map]; rewrite IH; reflexivity.
Qed.

Definition simulates (cf ce : rcont) : Prop :=
  rc_precision cf = rc_precision ce /\ rc_filters cf = rc_filters ce /\
  rc_set cf = map to_double (rc_set ce) /\ Forall (rounded_double (rc_precision ce)) (rc_set ce).

Lemma sim_add cf ce info r ctx : simulates cf ce -> double_root r ->
  simulates (fst (frc_add py_round info r ctx cf)) (fst (rc_add info r ctx ce)) /\
  snd (frc_add py_round info r ctx cf) = snd (rc_add info r ctx ce).
Proof.
  intros (S1 & S2 & S3 & S4) Hr. unfold frc_add, rc_add. rewrite S2.
  destruct (run_filters (rc_filters ce) r ctx) as [[|]|e]; [|split; [repeat split; assumption|reflexivity]..].
  rewrite S1.
  assert (K : rounded_double (fc_precision ctx) (roundRoot r (fc_precision ctx))) by (exists r; auto).
  assert (K' : rounded_double (rc_precision ce) (roundRoot r (rc_precision ce))) by (exists r; auto).
  destruct (negb (prec_eqb (fc_precision ctx) (rc_precision ce))).
  - cbn [rc_clear rc_precision rc_set rc_filters]. rewrite !froundRoot_py.
    cbn [set_mem existsb]. rewrite andb_false_r. cbn [fst snd]. split; [|reflexivity].
    unfold simulates. cbn [rc_precision rc_set rc_filters set_add set_mem existsb app map].
    split; [reflexivity|]. split; [exact S2|]. split; [reflexivity|]. constructor; [exact K|constructor].
  - rewrite froundRoot_py, S1, S3, (set_mem_to_double (rc_precision ce)) by assumption.
    destruct (info && _); cbn [fst snd].
    + split; [repeat split; assumption|reflexivity].
    + split; [|reflexivity]. unfold simulates. cbn [rc_precision rc_set rc_filters].
      split; [reflexivity|]. split; [exact S2|].
      split; [apply (set_add_to_double (rc_precision ce)); assumption|].
      unfold set_add. destruct (set_mem _ _); [exact S4|]. apply Forall_app. auto.
Qed.
Lemma sim_remove cf ce r : simulates cf ce -> double_root r ->
  simulates (fst (frc_remove py_round r cf)) (fst (rc_remove r ce)) /\
  snd (frc_remove py_round r cf) = snd (rc_remove r ce).
Proof.
  intros (S1 & S2 & S3 & S4) Hr. unfold frc_remove, rc_remove. rewrite froundRoot_py, S1, S3.
  assert (K' : rounded_double (rc_precision ce) (roundRoot r (rc_precision ce))) by (exists r; auto).
  rewrite (set_mem_to_double (rc_precision ce)) by assumption.
  destruct (set_mem _ _); cbn [fst snd].
  - split; [|reflexivity]. unfold simulates. cbn [rc_precision rc_set rc_filters].
    split; [reflexivity|]. split; [exact S2|].
    split; [apply (set_remove_to_double (rc_precision ce)); assumption|].
    rewrite Forall_forall in *. intros x Hx. apply S4. unfold set_remove in Hx. apply filter_In in Hx. tauto.
  - split; [repeat split; assumption|reflexivity].
Qed.
Lemma sim_step cf ce o : simulates cf ce -> double_history [o] -> simulates (frc_step py_round cf o) (rc_step ce o).
Proof.
  intros S [H1 H2]. destruct o as [info r ctx|r| |q k|k]; cbn [frc_step rc_step].
  - apply sim_add; [exact S|]. apply (H1 info r ctx). left; reflexivity.
  - apply sim_remove; [exact S|]. apply (H2 r). left; reflexivity.
  - destruct S as (S1 & S2 & S3 & S4). unfold rc_clear, simulates. cbn. auto.
  - destruct S as (S1 & S2 & S3 & S4). unfold rc_register, simulates. cbn [rc_precision rc_set rc_filters].
    rewrite S2. auto.
  - destruct S as (S1 & S2 & S3 & S4). unfold rc_unregister, simulates. cbn [rc_precision rc_set rc_filters].
    rewrite S2. auto.
Qed.
Lemma double_history_cons o h : double_history (o :: h) -> double_history [o] /\ double_history h.
Proof.
  intros [H1 H2]. split; split.
  - intros info r ctx [E|[]]. apply (H1 info r ctx). left; exact E.
  - intros r [E|[]]. apply (H2 r). left; exact E.
  - intros info r ctx E. apply (H1 info r ctx). right; exact E.
  - intros r E. apply (H2 r). right; exact E.
Qed.
Lemma sim_run h : forall cf ce, simulates cf ce -> double_history h ->
  simulates (frc_run py_round h cf) (rc_run h ce).
Proof.
  induction h as [|o h IH]; intros cf ce S D; [exact S|]. apply double_history_cons in D. destruct D as [D1 D2].
  cbn [frc_run rc_run fold_left]. apply IH; [apply sim_step; assumption|exact D2].
Qed.

Lemma sim_init p sp : simulates (rc_init p sp) (rc_init p sp).
Proof. unfold simulates, rc_init. cbn. auto. Qed.

Lemma zip_pairs (l : list root) : combine (map fst l) (map snd l) = l.
Proof. induction l as [|[a b] l IH]; [reflexivity|]. cbn [map combine fst snd]. rewrite IH. reflexivity. Qed.
Lemma reported_in iter c pr : iteration_order iter -> (In pr (reported_pairs iter c) <-> In pr (rc_set c)).
Proof.
  intro H. unfold reported_pairs, rc_getRoots, rc_getRootOrders. rewrite zip_pairs.
  split; apply Permutation_in; [apply H|apply Permutation_sym, H].
Qed.

Lemma container64 p sp h iter : iteration_order iter -> double_history h ->
  let cf := frc_run py_round h (rc_init p sp) in
  let ce := rc_run h (rc_init p sp) in
  rc_precision cf = rc_precision ce /\ rc_filters cf = rc_filters ce /\
  (forall pr, In pr (reported_pairs iter cf) <-> exists s, In s (reported_pairs iter ce) /\ pr = as_doubles s) /\
  NoDup (reported_pairs iter cf) /\
  List.length (reported_pairs iter cf) = List.length (reported_pairs iter ce) /\
  (forall info r ctx, double_root r ->
     snd (frc_add py_round info r ctx cf) = snd (rc_add info r ctx ce)) /\
  (forall r, double_root r -> snd (frc_remove py_round r cf) = snd (rc_remove r ce)).
Proof.
  intros HI D cf ce.
  pose proof (sim_run h _ _ (sim_init p sp) D) as S. fold cf ce in S.
  pose proof S as (S1 & S2 & S3 & S4).
  assert (ND : NoDup (rc_set ce)) by apply rc_after_inv.
  assert (L : forall c, reported_pairs iter c = iter (rc_set c)).
  { intro c. unfold reported_pairs, rc_getRoots, rc_getRootOrders. apply zip_pairs. }
  split; [exact S1|]. split; [exact S2|]. split; [|split; [|split; [|split]]].
  - intro pr. rewrite (reported_in iter cf pr HI), S3, in_map_iff. split.
    + intros (s & <- & Hs). exists s. rewrite (reported_in iter ce s HI). auto.
    + intros (s & Hs & ->). rewrite (reported_in iter ce s HI) in Hs. exists s. auto.
  - rewrite L. apply (Permutation_NoDup (Permutation_sym (HI (rc_set cf)))). rewrite S3.
    clear -S4 ND. induction ND as [|a s Ha ND IH]; [constructor|]. inversion S4 as [|? ? Ka Ks]; subst.
    cbn [map]. constructor; [|apply IH, Ks]. intro C. apply in_map_iff in C. destruct C as (b & E & Hb).
    apply Ha. rewrite Forall_forall in Ks. specialize (Ks b Hb).
    destruct Ka as (r & [R1 R2] & ->). destruct Ks as (r' & [R3 R4] & ->).
    unfold as_doubles, roundRoot in E. cbn [re im fst snd] in E. injection E as E1 E2 E3.
    apply (py_round_inj _ _ _ R3 R1) in E1. apply (py_round_inj _ _ _ R4 R2) in E2.
    unfold roundRoot in *. rewrite <- E1, <- E2, <- E3. exact Hb.
  - rewrite !L. rewrite (Permutation_length (HI (rc_set cf))), (Permutation_length (HI (rc_set ce))), S3.
    apply map_length.
  - intros info r ctx Hr. apply sim_add; assumption.
  - intros r Hr. apply sim_remove; assumption.
Qed.

(** ** numpy's rounding *)
Lemma half_even_error x : (Qabs (x - inject_Z (round_half_even x)) <= 1 # 2)%Q.
Proof. apply round_half_even_nearest. Qed.

Lemma scaled_close (k : Z) n y : 0 <= n <= 22 -> Z.abs k <= 2 ^ 50 + 1 ->
  y = rnd64 (inject_Z k / pow10 n) -> (Qabs (y * pow10 n - inject_Z k) <= 9 # 64)%Q.
Proof.
  intros Hn Hk ->. pose proof (pow10_pos n) as P.
  destruct (Z.eq_dec k 0) as [->|K0].
  { assert (E : rnd64 (inject_Z 0 / pow10 n) = 0%Q) by (apply (rnd64_compat _ 0); unfold Qdiv; ring).
    rewrite E. setoid_replace (0 * pow10 n - inject_Z 0)%Q with 0%Q by ring. discriminate. }
  assert (R : (Qabs (rnd64 (inject_Z k / pow10 n) - inject_Z k / pow10 n) <= 2 ^ (-53) * Qabs (inject_Z k / pow10 n))%Q).
  { apply rnd64_relative. unfold Qdiv. rewrite Qabs_Qmult.
    rewrite (Qabs_pos (/ pow10 n)) by (apply Qlt_le_weak, Qinv_lt_0_compat, P).
    assert (A : (1 <= Qabs (inject_Z k))%Q).
    { change 1%Q with (inject_Z 1). unfold Qabs, inject_Z. unfold Qle. cbn. lia. }
    assert (B : (2 ^ (-1022) <= / pow10 n)%Q).
    { apply Qle_trans with (/ pow10 22)%Q; [apply Qle_bool_iff; vm_compute; reflexivity|].
      assert (PP : (pow10 n <= pow10 22)%Q).
      { apply Rle_Qle. rewrite !Q2R_pow10_nonneg by lia. apply IZR_le, Z.pow_le_mono_r; lia. }
      apply Qle_shift_inv_l; [exact P|]. rewrite Qmult_comm.
      apply Qle_shift_div_r; [reflexivity|]. rewrite Qmult_1_l. exact PP. }
    eapply Qle_trans; [exact B|]. rewrite <- (Qmult_1_l (/ pow10 n)) at 1.
    apply Qmult_le_compat_r; [exact A|]. apply Qlt_le_weak, Qinv_lt_0_compat, P. }
  set (y := rnd64 _) in *.
  setoid_replace (y * pow10 n - inject_Z k)%Q with ((y - inject_Z k / pow10 n) * pow10 n)%Q
    by (field; intro C; rewrite C in P; discriminate).
  rewrite Qabs_Qmult, (Qabs_pos (pow10 n)) by (apply Qlt_le_weak, P).
  apply Qle_trans with (2 ^ (-53) * Qabs (inject_Z k))%Q.
  - apply Qle_trans with (2 ^ (-53) * Qabs (inject_Z k / pow10 n) * pow10 n)%Q.
    + apply Qmult_le_compat_r; [exact R|apply Qlt_le_weak, P].
    + unfold Qdiv. rewrite Qabs_Qmult, (Qabs_pos (/ pow10 n)) by (apply Qlt_le_weak, Qinv_lt_0_compat, P).
      setoid_replace (2 ^ (-53) * (Qabs (inject_Z k) * / pow10 n) * pow10 n)%Q
        with (2 ^ (-53) * Qabs (inject_Z k))%Q by (field; intro C; rewrite C in P; discriminate).
      apply Qle_refl.
  - apply Qle_trans with (2 ^ (-53) * inject_Z (2 ^ 50 + 1))%Q; [|apply Qle_bool_iff; vm_compute; reflexivity].
    rewrite !(Qmult_comm (2 ^ (-53))). apply Qmult_le_compat_r; [|apply Qlt_le_weak, Qpow2_pos].
    change (Qabs (inject_Z k)) with (inject_Z (Z.abs k)). rewrite <- Zle_Qle. exact Hk.
Qed.

Lemma rnd64_near x : (Qabs x <= inject_Z (2 ^ 51))%Q -> (Qabs (rnd64 x - x) <= 1 # 8)%Q.
Proof.
  intro H. eapply Qle_trans; [apply (accurate64 50)|].
  - lia.
  - eapply Qle_trans; [exact H|]. apply Qle_bool_iff. vm_compute. reflexivity.
  - apply Qle_bool_iff. vm_compute. reflexivity.
Qed.
Lemma rnd64_near' x : (Qabs x <= inject_Z (2 ^ 50))%Q -> (Qabs (rnd64 x - x) <= 1 # 16)%Q.
Proof.
  intro H. eapply Qle_trans; [apply (accurate64 49)|].
  - lia.
  - eapply Qle_trans; [exact H|]. apply Qle_bool_iff. vm_compute. reflexivity.
  - apply Qle_bool_iff. vm_compute. reflexivity.
Qed.

Section Numpy.
  Variables (n : Z) (x : Q).
  Hypothesis Hn : 0 <= n <= 22.
  Hypothesis Hx : (Qabs (x * pow10 n) <= inject_Z (2 ^ 50))%Q.
  Notation k := (round_half_even (rnd64 (x * pow10 n))).

  Lemma np_k : (Qabs (x * pow10 n - inject_Z k) <= 9 # 16)%Q.
  Proof.
    pose proof (rnd64_near' _ Hx) as A. pose proof (half_even_error (rnd64 (x * pow10 n))) as B.
    apply Qabs_Qle_condition in A, B. apply Qabs_Qle_condition. Lqa.lra.
  Qed.
  Lemma np_k_bound : Z.abs k <= 2 ^ 50 + 1.
  Proof.
    pose proof np_k as A. pose proof Hx as B. apply Qabs_Qle_condition in A, B.
    assert (C : (inject_Z k < inject_Z (2 ^ 50 + 2))%Q) by (rewrite (inject_Z_plus (2 ^ 50) 2); change (inject_Z 2) with 2%Q; Lqa.lra).
    assert (D : (inject_Z (- (2 ^ 50 + 2)) < inject_Z k)%Q).
    { rewrite inject_Z_opp, (inject_Z_plus (2 ^ 50) 2). change (inject_Z 2) with 2%Q. Lqa.lra. }
    rewrite <- Zlt_Qlt in C, D. lia.
  Qed.
  Lemma np_again (y : Q) (j : Z) : Z.abs j <= 2 ^ 50 + 1 -> y = rnd64 (inject_Z j / pow10 n) ->
    round_half_even (rnd64 (y * pow10 n)) = j.
  Proof.
    intros Hj Hy. pose proof (scaled_close j n y Hn Hj Hy) as A.
    assert (B : (Qabs (y * pow10 n) <= inject_Z (2 ^ 51))%Q).
    { apply Qabs_Qle_condition in A. apply Qabs_Qle_condition.
      assert (C1 : (inject_Z j <= inject_Z (2 ^ 50 + 1))%Q) by (rewrite <- Zle_Qle; lia).
      assert (C2 : (inject_Z (- (2 ^ 50 + 1)) <= inject_Z j)%Q) by (rewrite <- Zle_Qle; lia).
      rewrite inject_Z_opp in C2.
      assert (C3 : (inject_Z (2 ^ 50 + 1) + 1 <= inject_Z (2 ^ 51))%Q) by discriminate.
      set (u := inject_Z (2 ^ 50 + 1)) in *. set (v := inject_Z (2 ^ 51)) in *. clearbody u v. Lqa.lra. }
    apply rnd64_near in B. apply round_half_even_close.
    apply Qabs_Qle_condition in A, B. apply Qabs_Qlt_condition. Lqa.lra.
  Qed.

  Lemma np_stable : np_round n (np_round n x) = np_round n x.
  Proof.
    unfold np_round at 1. rewrite (np_again _ k np_k_bound); [reflexivity|]. reflexivity.
  Qed.

  Lemma div_pow10 (j : Z) : (inject_Z j / pow10 n == inject_Z j * pow10 (- n))%Q.
  Proof.
    pose proof (pow10_inv n) as I. pose proof (pow10_pos n) as P.
    assert (NZ : ~ (pow10 n == 0)%Q) by (intro C; rewrite C in P; discriminate).
    apply (Qmult_inj_r _ _ (pow10 n) NZ).
    setoid_replace (inject_Z j / pow10 n * pow10 n)%Q with (inject_Z j) by (field; exact NZ).
    rewrite <- Qmult_assoc, (Qmult_comm (pow10 (- n))), I. ring.
  Qed.

  Lemma np_spec : exists j : Z, np_round n x = rnd64 (inject_Z j * pow10 (- n)) /\
    (Qabs (x - inject_Z j * pow10 (- n)) <= (9 # 16) * pow10 (- n))%Q.
  Proof.
    exists k. split.
    - unfold np_round. apply rnd64_compat, div_pow10.
    - pose proof np_k as A. pose proof (pow10_pos (- n)) as P.
      rewrite <- (scale_unscale n x) at 1.
      setoid_replace (x * pow10 n * pow10 (- n) - inject_Z k * pow10 (- n))%Q
        with ((x * pow10 n - inject_Z k) * pow10 (- n))%Q by ring.
      rewrite Qabs_Qmult, (Qabs_pos (pow10 (- n))) by (apply Qlt_le_weak, P).
      apply Qmult_le_compat_r; [exact A|apply Qlt_le_weak, P].
  Qed.

  (** Away from ties it agrees with Python's. *)
  Lemma np_agree (j : Z) : (Qabs (x - inject_Z j * pow10 (- n)) < (7 # 16) * pow10 (- n))%Q ->
    np_round n x = py_round n x.
  Proof.
    intro H. pose proof (pow10_pos (- n)) as P.
    assert (E : (round_dec n x == inject_Z j * pow10 (- n))%Q).
    { apply round_dec_close. eapply Qlt_trans; [exact H|]. apply Qmult_lt_r; [exact P|reflexivity]. }
    unfold np_round, py_round. apply rnd64_compat. rewrite E, div_pow10.
    assert (K : k = j); [|rewrite K; reflexivity].
    apply round_half_even_close.
    assert (D : (Qabs (x * pow10 n - inject_Z j) < 7 # 16)%Q).
    { pose proof (pow10_pos n) as Pn. apply (Qmult_lt_r _ _ (pow10 n) Pn) in H.
      rewrite <- Qmult_assoc in H. rewrite (Qmult_comm (pow10 (- n)) (pow10 n)), pow10_inv, Qmult_1_r in H.
      rewrite <- (Qabs_pos (pow10 n)) in H by (apply Qlt_le_weak, Pn). rewrite <- Qabs_Qmult in H.
      setoid_replace ((x - inject_Z j * pow10 (- n)) * pow10 n)%Q with (x * pow10 n - inject_Z j * pow10 (- n) * pow10 n)%Q in H by ring.
      rewrite unscale_scale in H. exact H. }
    pose proof (rnd64_near' _ Hx) as A. apply Qabs_Qle_condition in A. apply Qabs_Qlt_condition in D.
    apply Qabs_Qlt_condition. Lqa.lra.
  Qed.

  (** A value rounded by numpy is left alone by Python's rounding. *)
  Lemma py_after_np : py_round n (np_round n x) = np_round n x.
  Proof.
    unfold py_round, np_round. set (y := rnd64 (inject_Z k / pow10 n)).
    pose proof (scaled_close k n y Hn np_k_bound eq_refl) as A.
    apply rnd64_compat. rewrite div_pow10. apply round_dec_close.
    pose proof (pow10_pos (- n)) as P.
    rewrite <- (scale_unscale n y) at 1.
    setoid_replace (y * pow10 n * pow10 (- n) - inject_Z k * pow10 (- n))%Q
      with ((y * pow10 n - inject_Z k) * pow10 (- n))%Q by ring.
    rewrite Qabs_Qmult, (Qabs_pos (pow10 (- n))) by (apply Qlt_le_weak, P).
    apply Qmult_lt_r; [exact P|]. eapply Qle_lt_trans; [exact A|reflexivity].
  Qed.
End Numpy.

(** 0.15, rounded to one decimal: 0.1 by Python, 0.2 by numpy. *)
Lemma np_py_differ : let x := rnd64 (15 # 100) in
  py_round 1 x = rnd64 (1 # 10) /\ np_round 1 x = rnd64 (2 # 10).
Proof. vm_compute. split; reflexivity. Qed.

Lemma py_round_spec n x : is_double x ->
  is_double (py_round n x) /\
  (exists d, rounds_to n x d /\ py_round n x = rnd64 d) /\
  py_round n (py_round n x) = py_round n x /\
  (Qabs (py_round n x - x) <= pow10 (- n))%Q /\
  (forall y d e, is_double y -> rounds_to n x d -> rounds_to n y e -> (py_round n x = py_round n y <-> d = e)).
Proof.
  intro H. split; [apply rnd64_double|].
  split; [exists (round_dec n x); split; [apply rounds_to_iff; reflexivity|reflexivity]|].
  split; [apply py_round_stable, H|]. split; [apply py_round_error, H|].
  intros y d e Hy Hd He. apply rounds_to_iff in Hd, He. rewrite Hd, He. apply py_round_inj; assumption.
Qed.
Lemma np_round_spec n x : 0 <= n <= 22 -> (Qabs (x * pow10 n) <= inject_Z (2 ^ 50))%Q ->
  (exists j : Z, np_round n x = rnd64 (inject_Z j * pow10 (- n)) /\
     (Qabs (x - inject_Z j * pow10 (- n)) <= (9 # 16) * pow10 (- n))%Q) /\
  np_round n (np_round n x) = np_round n x /\
  py_round n (np_round n x) = np_round n x /\
  (forall j : Z, (Qabs (x - inject_Z j * pow10 (- n)) < (7 # 16) * pow10 (- n))%Q ->
     np_round n x = py_round n x).
Proof.
  intros Hn Hx. split; [apply np_spec; assumption|]. split; [apply np_stable; assumption|].
  split; [apply py_after_np; assumption|]. intro j. apply np_agree; assumption.
Qed.
Lemma np_py_differ_ex : exists x, is_double x /\ py_round 1 x = rnd64 (1 # 10) /\ np_round 1 x = rnd64 (2 # 10) /\
  py_round 1 x <> np_round 1 x.
Proof.
  exists (rnd64 (15 # 100)). split; [apply rnd64_double|]. destruct np_py_differ as [A B].
  split; [exact A|]. split; [exact B|]. rewrite A, B. vm_compute. discriminate.
Qed.
Lemma cont_demo :
  let a : root := ((rnd64 (1001 # 10000), 0%Q), 1) in
  let b : root := ((rnd64 (999 # 10000), 0%Q), 1) in
  let ctx := mkFctx (fun z => Ok z) (0, 1)%Q (0, 1)%Q (1, 1) 3 in
  let h := [RAdd false a ctx; RAdd false b ctx] in
  double_history h /\ rc_set (frc_run py_round h (rc_init (Some (1, 1)) (1, 1))) = [((rnd64 (1 # 10), 0%Q), 1)].
Proof.
  cbv zeta. split; [|vm_compute; reflexivity].
  assert (Z0 : is_double 0) by (apply is_double_iff; reflexivity).
  split.
  - intros info r ctx [E|[E|[]]]; injection E as _ <- _; (split; [apply rnd64_double|exact Z0]).
  - intros r [E|[E|[]]]; discriminate.
Qed.
