(** Whole searches in binary64: domain, cells, rounding, the serial finder. *)
From Coq Require Import Permutation Reals Qreals Qminmax.
From Verif Require Import PyBase Rounding_Model Rounding_Proofs Container_Model Container_Spec
  Container_Proofs Finder_Model Finder_Spec Finder_Proofs Poly_Model Refine_Model Refine_Spec
  Refine_Proofs Refine_Proofs2 Zeros_Spec Zeros_Proofs Refine_Proofs3 EndToEnd_Model EndToEnd_Spec
  EndToEnd_Proofs EndToEnd_Proofs2 Float_Model Float_Spec Float_Proofs Float_Proofs2 Float_Proofs3 Float_Proofs4
  FloatGrid_Model FloatGrid_Spec FloatGrid_Proofs FloatCont_Model FloatCont_Spec FloatCont_Proofs
  FloatEnd_Model FloatEnd_Spec FloatEnd_Proofs FloatEnd_Proofs2.
From Coq Require Import Lqa.
Open Scope Z_scope.

(** The scale of a coordinate: numbers of size at most 2^k, tolerance [t] close to [e]. *)
Record scale (k : Z) (t e : Q) : Prop := mkScale {
  sc_k : -1022 <= k;
  sc_double : is_double t;
  sc_low : (2 ^ (k - 49) <= t)%Q;
  sc_high : (t <= 2 ^ (k - 4))%Q;
  sc_e : (0 < e)%Q;
  sc_close : (Qabs (t - e) <= 2 ^ (-50) * e)%Q
}.

Lemma scale_facts k t e : scale k t e ->
  let u := (2 ^ (k - 53))%Q in
  let B := (2 ^ k)%Q in
  (0 < u /\ 0 < B /\ 16 * u <= t /\ 16 * t <= B /\
   (1 - (1 # 1000)) * e <= t /\ t <= (1 + (1 # 1000)) * e /\ 2 ^ (k - 1) == (1 # 2) * B)%Q.
Proof.
  intros [K D L H E C] u B.
  assert (PL : forall a b, (2 ^ (a + b) == 2 ^ a * 2 ^ b)%Q) by (intros; apply Qpower_plus; discriminate).
  assert (A1 : (2 ^ (k - 49) == 16 * u)%Q).
  { unfold u. replace (k - 49) with (4 + (k - 53)) by lia. rewrite PL. reflexivity. }
  assert (A2 : (16 * 2 ^ (k - 4) == B)%Q).
  { unfold B. replace k with (4 + (k - 4)) at 2 by lia. rewrite PL. reflexivity. }
  assert (A3 : (2 ^ (k - 1) == (1 # 2) * B)%Q).
  { unfold B. replace k with (1 + (k - 1)) at 2 by lia. rewrite PL. change (2 ^ 1)%Q with 2%Q. ring. }
  pose proof (Qpow2_pos (k - 53)) as U0. pose proof (Qpow2_pos k) as B0. fold u in U0. fold B in B0.
  rewrite A1 in L. apply Qabs_Qle_condition in C.
  assert (S1 : (2 ^ (-50) * e <= (1 # 1000) * e)%Q).
  { apply Qmult_le_compat_r; [|lra]. apply Qle_bool_iff. vm_compute. reflexivity. }
  set (s := (2 ^ (-50) * e)%Q) in *. set (h := (2 ^ (k - 4))%Q) in *. clearbody s h u B.
  split; [exact U0|]. split; [exact B0|]. split; [lra|]. split; [lra|]. split; [lra|]. split; [lra|]. exact A3.
Qed.

Lemma rnd64_near k x : -1022 <= k -> (Qabs x <= 2 * 2 ^ k)%Q -> (Qabs (rnd64 x - x) <= 2 ^ (k - 53))%Q.
Proof.
  intros Hk Hx. rewrite <- pow2_Qpower. apply (accurate64 k Hk). rewrite pow2_Qpower. exact Hx.
Qed.

(** ** The searched rectangle *)
Lemma fdomain_x k t e r : scale k t e -> below (k - 1) r ->
  let u := (2 ^ (k - 53))%Q in
  let lo := rnd64 (fst (sorted2 r) - rnd64 (1 * t)) in
  let hi := rnd64 (snd (sorted2 r) + rnd64 (2 * t)) in
  (Qmin (fst r) (snd r) - t - u <= lo /\ lo <= Qmin (fst r) (snd r) - t + u /\
   Qmax (fst r) (snd r) + 2 * t - u <= hi /\ hi <= Qmax (fst r) (snd r) + 2 * t + u)%Q.
Proof.
  intros HS [B1 B2] u lo hi. pose proof (scale_facts k t e HS) as (U0 & B0 & U1 & T1 & E1 & E2 & KB).
  fold u in U0, U1. pose proof (sc_double _ _ _ HS) as D. apply is_double_iff in D.
  rewrite KB in B1, B2. apply Qabs_Qle_condition in B1, B2.
  destruct (sorted2_min r) as [M1 M2].
  assert (W1 : (rnd64 (1 * t) == t)%Q).
  { rewrite (rnd_eq rnd64 rounding64 (1 * t) t) by ring. exact D. }
  assert (W2 : (rnd64 (2 * t) == 2 * t)%Q) by (apply (rnd_double _ rounding64), D).
  assert (Hm : ((fst (sorted2 r) == fst r \/ fst (sorted2 r) == snd r) /\ (snd (sorted2 r) == fst r \/ snd (sorted2 r) == snd r))%Q).
  { destruct (sorted2_cases r) as [[_ ->]|[_ ->]]; cbn [fst snd]; split; solve [left; reflexivity | right; reflexivity]. }
  assert (HB : (- ((1 # 2) * 2 ^ k) <= fst (sorted2 r) /\ fst (sorted2 r) <= (1 # 2) * 2 ^ k /\
                - ((1 # 2) * 2 ^ k) <= snd (sorted2 r) /\ snd (sorted2 r) <= (1 # 2) * 2 ^ k)%Q).
  { destruct Hm as [[H1|H1] [H2|H2]]; rewrite H1, H2; repeat split; tauto. }
  set (B := (2 ^ k)%Q) in *.
  assert (L : (Qabs (lo - (fst (sorted2 r) - t)) <= u)%Q).
  { unfold lo. rewrite (rnd_eq rnd64 rounding64 (fst (sorted2 r) - rnd64 (1 * t)) (fst (sorted2 r) - t)) by (rewrite W1; reflexivity).
    apply rnd64_near; [exact (sc_k _ _ _ HS)|]. apply Qabs_Qle_condition. fold B. lra. }
  assert (H : (Qabs (hi - (snd (sorted2 r) + 2 * t)) <= u)%Q).
  { unfold hi. rewrite (rnd_eq rnd64 rounding64 (snd (sorted2 r) + rnd64 (2 * t)) (snd (sorted2 r) + 2 * t)) by (rewrite W2; reflexivity).
    apply rnd64_near; [exact (sc_k _ _ _ HS)|]. apply Qabs_Qle_condition. fold B. lra. }
  apply Qabs_Qle_condition in L, H. rewrite M1 in L. rewrite M2 in H.
  clearbody lo hi u. lra.
Qed.

Lemma fdomain_y k t e r : scale k t e -> below (k - 1) r ->
  let u := (2 ^ (k - 53))%Q in
  let lo := rnd64 (fst (sorted2 r) - rnd64 (3 * t)) in
  let hi := rnd64 (snd (sorted2 r) + rnd64 (4 * t)) in
  (Qmin (fst r) (snd r) - 3 * t - 2 * u <= lo /\ lo <= Qmin (fst r) (snd r) - 3 * t + 2 * u /\
   Qmax (fst r) (snd r) + 4 * t - 2 * u <= hi /\ hi <= Qmax (fst r) (snd r) + 4 * t + 2 * u)%Q.
Proof.
  intros HS [B1 B2] u lo hi. pose proof (scale_facts k t e HS) as (U0 & B0 & U1 & T1 & E1 & E2 & KB).
  fold u in U0, U1. pose proof (sc_double _ _ _ HS) as D. apply is_double_iff in D.
  rewrite KB in B1, B2. apply Qabs_Qle_condition in B1, B2.
  destruct (sorted2_min r) as [M1 M2].
  assert (Hm : ((fst (sorted2 r) == fst r \/ fst (sorted2 r) == snd r) /\ (snd (sorted2 r) == fst r \/ snd (sorted2 r) == snd r))%Q).
  { destruct (sorted2_cases r) as [[_ ->]|[_ ->]]; cbn [fst snd]; split; solve [left; reflexivity | right; reflexivity]. }
  assert (HB : (- ((1 # 2) * 2 ^ k) <= fst (sorted2 r) /\ fst (sorted2 r) <= (1 # 2) * 2 ^ k /\
                - ((1 # 2) * 2 ^ k) <= snd (sorted2 r) /\ snd (sorted2 r) <= (1 # 2) * 2 ^ k)%Q).
  { destruct Hm as [[H1|H1] [H2|H2]]; rewrite H1, H2; repeat split; tauto. }
  set (B := (2 ^ k)%Q) in *.
  assert (W1 : (Qabs (rnd64 (3 * t) - 3 * t) <= u)%Q).
  { apply rnd64_near; [exact (sc_k _ _ _ HS)|]. apply Qabs_Qle_condition. fold B. lra. }
  assert (W2 : (rnd64 (4 * t) == 4 * t)%Q).
  { rewrite (rnd_eq rnd64 rounding64 (4 * t) (2 * (2 * t))) by ring.
    pose proof (rnd_double _ rounding64 _ (rnd_double _ rounding64 _ D)) as W2. unfold representable in W2.
    rewrite W2. ring. }
  apply Qabs_Qle_condition in W1. set (w := rnd64 (3 * t)) in *.
  assert (L : (Qabs (lo - (fst (sorted2 r) - w)) <= u)%Q).
  { apply rnd64_near; [exact (sc_k _ _ _ HS)|]. apply Qabs_Qle_condition. fold B. lra. }
  assert (H : (Qabs (hi - (snd (sorted2 r) + 4 * t)) <= u)%Q).
  { unfold hi. rewrite (rnd_eq rnd64 rounding64 (snd (sorted2 r) + rnd64 (4 * t)) (snd (sorted2 r) + 4 * t)) by (rewrite W2; reflexivity).
    apply rnd64_near; [exact (sc_k _ _ _ HS)|]. apply Qabs_Qle_condition. fold B. lra. }
  apply Qabs_Qle_condition in L, H. rewrite M1 in L. rewrite M2 in H.
  clearbody lo hi u w. lra.
Qed.

Lemma below_minmax k r : below k r -> (- 2 ^ k <= Qmin (fst r) (snd r) /\ Qmax (fst r) (snd r) <= 2 ^ k)%Q.
Proof.
  intros [A B]. apply Qabs_Qle_condition in A, B. split.
  - apply Q.min_glb; tauto.
  - apply Q.max_lub; tauto.
Qed.

Section Domain.
  Variables (f : holoFunc) (df : option holoFunc) (dflt : Z * Z) (reRan imRan : Q * Q) (prec : option (Z * Z)).
  Variables (k : Z) (tx ty : Q).
  Let P := search_precision dflt prec.
  Let x := fserial_context rnd64 tx ty f df dflt reRan imRan prec.
  Hypothesis S1 : scale k tx (pow10 (- fst P)).
  Hypothesis S2 : scale k ty (pow10 (- snd P)).
  Hypothesis D1 : double_pair reRan.
  Hypothesis D2 : double_pair imRan.
  Hypothesis B1 : below (k - 1) reRan.
  Hypothesis B2 : below (k - 1) imRan.

  Lemma frect_eq :
    x1 (rect_of x) = rnd64 (fst (sorted2 reRan) - rnd64 (1 * tx)) /\
    x2 (rect_of x) = rnd64 (snd (sorted2 reRan) + rnd64 (2 * tx)) /\
    y1 (rect_of x) = rnd64 (fst (sorted2 imRan) - rnd64 (3 * ty)) /\
    y2 (rect_of x) = rnd64 (snd (sorted2 imRan) + rnd64 (4 * ty)).
  Proof.
    unfold x, rect_of, fserial_context. cbn [cx_reRan cx_imRan x1 x2 y1 y2]. rewrite fdesym_eq. cbn [fst snd].
    auto.
  Qed.

  Lemma frect_double : double_rect (rect_of x).
  Proof.
    destruct frect_eq as (A & B & C & D). unfold double_rect. rewrite A, B, C, D.
    repeat split; apply is_double_iff, (rnd_idem _ rounding64).
  Qed.

  Let e1 := pow10 (- fst P).
  Let e2 := pow10 (- snd P).
  Lemma frect_bounds :
    (Qmin (fst reRan) (snd reRan) - (5 # 4) * e1 <= x1 (rect_of x) /\
     x1 (rect_of x) <= Qmin (fst reRan) (snd reRan) - (3 # 4) * e1 /\
     Qmax (fst reRan) (snd reRan) + (7 # 4) * e1 <= x2 (rect_of x) /\
     x2 (rect_of x) <= Qmax (fst reRan) (snd reRan) + (9 # 4) * e1 /\
     Qmin (fst imRan) (snd imRan) - (13 # 4) * e2 <= y1 (rect_of x) /\
     y1 (rect_of x) <= Qmin (fst imRan) (snd imRan) - (11 # 4) * e2 /\
     Qmax (fst imRan) (snd imRan) + (15 # 4) * e2 <= y2 (rect_of x) /\
     y2 (rect_of x) <= Qmax (fst imRan) (snd imRan) + (17 # 4) * e2)%Q.
  Proof.
    destruct frect_eq as (A & B & C & D). rewrite A, B, C, D.
    pose proof (fdomain_x _ _ _ _ S1 B1) as H1. pose proof (fdomain_y _ _ _ _ S2 B2) as H2.
    pose proof (scale_facts _ _ _ S1) as F1. pose proof (scale_facts _ _ _ S2) as F2.
    cbv zeta in *. fold e1 e2 in F1, F2.
    set (u := (2 ^ (k - 53))%Q) in *. clearbody u.
    repeat match goal with |- context [rnd64 ?v] => set (rnd64 v) in *; clearbody q end.
    set (m1 := Qmin (fst reRan) (snd reRan)) in *. set (m2 := Qmax (fst reRan) (snd reRan)) in *.
    set (m3 := Qmin (fst imRan) (snd imRan)) in *. set (m4 := Qmax (fst imRan) (snd imRan)) in *.
    clearbody m1 m2 m3 m4.
    lra.
  Qed.

  Lemma frect_size : rect_below k (rect_of x).
  Proof.
    pose proof frect_bounds as H. unfold rect_below.
    pose proof (scale_facts _ _ _ S1) as (U0 & B0 & U1 & T1 & G1 & G2 & KB).
    pose proof (scale_facts _ _ _ S2) as (_ & _ & V1 & W1 & I1 & I2 & _).
    fold e1 in G1, G2. fold e2 in I1, I2.
    destruct (below_minmax _ _ B1) as [M1 M2]. destruct (below_minmax _ _ B2) as [M3 M4].
    rewrite KB in M1, M2, M3, M4.
    set (BB := (2 ^ k)%Q) in *. lra.
  Qed.

  Lemma frect_wide : (x1 (rect_of x) < x2 (rect_of x) /\ y1 (rect_of x) < y2 (rect_of x))%Q.
  Proof.
    pose proof frect_bounds as H. pose proof (minmax (fst reRan) (snd reRan)). pose proof (minmax (fst imRan) (snd imRan)).
    pose proof (pow10_pos (- fst P)) as E1. pose proof (pow10_pos (- snd P)) as E2. fold e1 in E1. fold e2 in E2. lra.
  Qed.
  Lemma frect_proper : proper (rect_of x).
  Proof. destruct frect_wide. split; apply Qlt_le_weak; assumption. Qed.

  Lemma frect_halvings a b :
    halvings (Qabs (fst reRan - snd reRan) + 4 * e1) (fst P) a ->
    halvings (Qabs (fst imRan - snd imRan) + 8 * e2) (snd P) b ->
    (x2 (rect_of x) - x1 (rect_of x) < inject_Z (2 ^ Z.of_nat (Datatypes.S a)) * tx)%Q /\
    (y2 (rect_of x) - y1 (rect_of x) < inject_Z (2 ^ Z.of_nat (Datatypes.S b)) * ty)%Q.
  Proof.
    unfold halvings. fold e1 e2. pose proof frect_bounds as H. rewrite <- !abs_minmax. intros H1 H2.
    pose proof (scale_facts _ _ _ S1) as (_ & _ & _ & _ & G1 & G2 & _).
    pose proof (scale_facts _ _ _ S2) as (_ & _ & _ & _ & I1 & I2 & _).
    fold e1 in G1, G2. fold e2 in I1, I2. rewrite !two_S.
    assert (PA : forall c, (0 < inject_Z (2 ^ Z.of_nat c))%Q).
    { intro c. change 0%Q with (inject_Z 0). rewrite <- Zlt_Qlt. apply Z.pow_pos_nonneg; lia. }
    pose proof (PA a) as A0. pose proof (PA b) as C0.
    set (ca := inject_Z (2 ^ Z.of_nat a)) in *. set (cb := inject_Z (2 ^ Z.of_nat b)) in *.
    assert (K1 : (ca * e1 <= ca * (2 * tx))%Q) by (apply Qmult_le_l; lra).
    assert (K2 : (cb * e2 <= cb * (2 * ty))%Q) by (apply Qmult_le_l; lra).
    split; lra.
  Qed.

  Lemma frect_requested z : requested reRan imRan z -> zin (rect_of x) z.
  Proof.
    destruct frect_bounds as (_ & A & B & _ & _ & C & D & _).
    pose proof (pow10_pos (- fst P)) as E1. pose proof (pow10_pos (- snd P)) as E2. fold e1 in E1. fold e2 in E2.
    assert (A' : (x1 (rect_of x) <= Qmin (fst reRan) (snd reRan))%Q) by lra.
    assert (B' : (Qmax (fst reRan) (snd reRan) <= x2 (rect_of x))%Q) by lra.
    assert (C' : (y1 (rect_of x) <= Qmin (fst imRan) (snd imRan))%Q) by lra.
    assert (D' : (Qmax (fst imRan) (snd imRan) <= y2 (rect_of x))%Q) by lra.
    apply Qle_Rle in A', B', C', D'. unfold requested, zin. Lra.lra.
  Qed.

  Lemma frect_about z : zin (rect_of x) z -> about_requested P reRan imRan z.
  Proof.
    destruct frect_bounds as (A & _ & _ & B & C & _ & _ & D).
    apply Qle_Rle in A, B, C, D. rewrite Q2R_minus, Q2R_mult in A, C. rewrite Q2R_plus, Q2R_mult in B, D.
    replace (Q2R (5 # 4)) with (5 / 4)%R in A by (unfold Q2R; cbn; Lra.lra).
    replace (Q2R (9 # 4)) with (9 / 4)%R in B by (unfold Q2R; cbn; Lra.lra).
    replace (Q2R (13 # 4)) with (13 / 4)%R in C by (unfold Q2R; cbn; Lra.lra).
    replace (Q2R (17 # 4)) with (17 / 4)%R in D by (unfold Q2R; cbn; Lra.lra).
    unfold about_requested, zin. fold e1 e2. Lra.lra.
  Qed.
End Domain.

(** ** A reported cell: all its points are close to the reported value *)
Lemma mid_near k t e a b (v : R) : scale k t e -> is_double a -> is_double b ->
  (a <= b)%Q -> (- 2 ^ k <= a)%Q -> (b <= 2 ^ k)%Q -> (b - a < t)%Q -> (Q2R a <= v <= Q2R b)%R ->
  is_double (fmid rnd64 a b) /\ (Qabs (fmid rnd64 a b) <= 2 ^ k)%Q /\
  (Rabs (v - Q2R (fmid rnd64 a b)) <= 3 / 5 * Q2R e)%R.
Proof.
  intros HS Ha Hb H LA UB Ht [Z1 Z2]. apply is_double_iff in Ha, Hb.
  pose proof (scale_facts k t e HS) as (U0 & B0 & U1 & T1 & E1 & E2 & _).
  destruct (fmid_between rnd64 rounding64 a b Ha Hb H) as [[M1 M2] MF].
  destruct (mid_error rnd64 rounding64 (pow2 k) (pow2 (k - 53)) (accurate64 k (sc_k _ _ _ HS)) a b Ha Hb H) as [N1 N2].
  { rewrite pow2_Qpower. exact LA. } { rewrite pow2_Qpower. exact UB. }
  rewrite pow2_Qpower in N1, N2.
  split; [apply is_double_iff, MF|]. split; [apply Qabs_Qle_condition; lra|].
  set (m := fmid rnd64 a b) in *. clearbody m.
  assert (K1 : (m <= (1 # 2) * a + (1 # 2) * b + (3 # 2) * 2 ^ (k - 53))%Q).
  { eapply Qle_trans; [exact N1|]. apply Qle_lteq. right. field. }
  assert (K2 : ((1 # 2) * a + (1 # 2) * b - (3 # 2) * 2 ^ (k - 53) <= m)%Q).
  { eapply Qle_trans; [|exact N2]. apply Qle_lteq. right. field. }
  set (u := (2 ^ (k - 53))%Q) in *. clearbody u. clear N1 N2.
  assert (Q1 : (b - m <= (3 # 5) * e)%Q) by lra.
  assert (Q2 : (m - a <= (3 # 5) * e)%Q) by lra.
  apply Qle_Rle in Q1, Q2. rewrite Q2R_minus, Q2R_mult in Q1, Q2.
  replace (Q2R (3 # 5)) with (3 / 5)%R in Q1, Q2 by (unfold Q2R; cbn; Lra.lra).
  apply Rabs_le. Lra.lra.
Qed.

Lemma py_round_near k t e n c : scale k t e -> (e == pow10 (- n))%Q -> (Qabs c <= 2 ^ k)%Q ->
  (Qabs (py_round n c - c) <= (3 # 5) * e)%Q.
Proof.
  intros HS He Hc. pose proof (scale_facts k t e HS) as (U0 & B0 & U1 & T1 & E1 & E2 & _).
  pose proof (round_dec_error n c) as R. rewrite <- He in R. unfold py_round. set (d := round_dec n c) in *.
  apply Qabs_Qle_condition in R, Hc.
  assert (N : (Qabs (rnd64 d - d) <= 2 ^ (k - 53))%Q).
  { apply rnd64_near; [exact (sc_k _ _ _ HS)|]. apply Qabs_Qle_condition.
    set (BB := (2 ^ k)%Q) in *. clearbody BB d. lra. }
  apply Qabs_Qle_condition in N. apply Qabs_Qle_condition.
  set (u := (2 ^ (k - 53))%Q) in *. set (w := rnd64 d) in *. clearbody u w d. lra.
Qed.

Lemma two_steps (v : R) c w (s r : Q) (e : R) : (Rabs (v - Q2R c) <= Q2R s * e)%R ->
  (Qabs (w - c) <= r)%Q -> (Rabs (v - Q2R w) <= Q2R s * e + Q2R r)%R.
Proof.
  intros H1 H2. rewrite Qabs_Qminus in H2. apply Qabs_R in H2.
  replace (v - Q2R w)%R with ((v - Q2R c) + (Q2R c - Q2R w))%R by ring.
  eapply Rle_trans; [apply Rabs_triang|]. Lra.lra.
Qed.

Section Cells.
  Variables (k : Z) (tx ty : Q) (P : Z * Z).
  Hypothesis S1 : scale k tx (pow10 (- fst P)).
  Hypothesis S2 : scale k ty (pow10 (- snd P)).
  Variables (W : rect) (q : rect).
  Hypothesis HW : rect_below k W.
  Hypothesis Hsub : sub_rect q W.
  Hypothesis Hp : proper q.
  Hypothesis Hf : float_rect rnd64 q.
  Hypothesis Hs : sides_below tx ty q.

  Lemma cell_mid z : zin q z ->
    (is_double (re (fcenter rnd64 q)) /\ is_double (im (fcenter rnd64 q))) /\
    (Qabs (re (fcenter rnd64 q)) <= 2 ^ k)%Q /\ (Qabs (im (fcenter rnd64 q)) <= 2 ^ k)%Q /\
    (Rabs (fst z - Q2R (re (fcenter rnd64 q))) <= 3 / 5 * Q2R (pow10 (- fst P)))%R /\
    (Rabs (snd z - Q2R (im (fcenter rnd64 q))) <= 3 / 5 * Q2R (pow10 (- snd P)))%R.
  Proof.
    intros [Z1 Z2]. destruct Hf as (R1 & R2 & R3 & R4). destruct Hp as [Px Py]. destruct Hs as [T1 T2].
    apply is_double_iff in R1, R2, R3, R4. unfold sub_rect in Hsub. unfold rect_below in HW.
    unfold fcenter, re, im. cbn [fst snd].
    destruct (mid_near k tx _ (x1 q) (x2 q) (fst z) S1 R1 R2 Px) as (A1 & A2 & A3); try assumption; try lra.
    destruct (mid_near k ty _ (y1 q) (y2 q) (snd z) S2 R3 R4 Py) as (C1 & C2 & C3); try assumption; try lra.
    auto.
  Qed.

  Lemma cell_small z1 z2 : zin q z1 -> zin q z2 ->
    (Rabs (fst z1 - fst z2) <= 5 / 4 * Q2R (pow10 (- fst P)) /\
     Rabs (snd z1 - snd z2) <= 5 / 4 * Q2R (pow10 (- snd P)))%R.
  Proof.
    intros [A1 A2] [C1 C2]. destruct Hs as [T1 T2].
    pose proof (scale_facts _ _ _ S1) as (_ & _ & _ & _ & _ & G1 & _).
    pose proof (scale_facts _ _ _ S2) as (_ & _ & _ & _ & _ & G2 & _).
    pose proof (pow10_pos (- fst P)) as E1. pose proof (pow10_pos (- snd P)) as E2.
    assert (L1 : (x2 q - x1 q <= (5 # 4) * pow10 (- fst P))%Q) by lra.
    assert (L2 : (y2 q - y1 q <= (5 # 4) * pow10 (- snd P))%Q) by lra.
    apply Qle_Rle in L1, L2. rewrite Q2R_minus, Q2R_mult in L1, L2.
    replace (Q2R (5 # 4)) with (5 / 4)%R in L1, L2 by (unfold Q2R; cbn; Lra.lra).
    split; apply Rabs_le; Lra.lra.
  Qed.

  Lemma cell_py z o : zin q z -> within (5 / 4) P (fst (froundRoot py_round (fcenter rnd64 q, o) P)) z.
  Proof.
    intro Hz. destruct (cell_mid z Hz) as (_ & A1 & A2 & A3 & A4).
    unfold froundRoot, within. cbn [fst snd]. set (c := fcenter rnd64 q) in *.
    pose proof (py_round_near k tx _ (fst P) (re c) S1 (Qeq_refl _) A1) as N1.
    pose proof (py_round_near k ty _ (snd P) (im c) S2 (Qeq_refl _) A2) as N2.
    assert (Q35 : Q2R (3 # 5) = (3 / 5)%R) by (unfold Q2R; cbn; Lra.lra).
    rewrite <- Q35 in A3, A4.
    pose proof (two_steps _ _ _ _ _ _ A3 N1) as K1. pose proof (two_steps _ _ _ _ _ _ A4 N2) as K2.
    rewrite Q2R_mult, Q35 in K1, K2.
    pose proof (Q2R_pow10_pos (- fst P)). pose proof (Q2R_pow10_pos (- snd P)).
    unfold re, im in *. cbn [fst snd] in *. split; Lra.lra.
  Qed.
End Cells.

(** ** Serial finder *)
Section SerialSearch.
  Context {S : Type} (E : env S).
  Variables (zeros : list point) (k : Z) (tx ty : Q) (depth : nat) (info : root -> bool) (s : S).
  Variables (f : holoFunc) (df : option holoFunc) (dflt : Z * Z) (reRan imRan : Q * Q) (prec : option (Z * Z)).
  Variables (p : option (Z * Z)) (sp : Z * Z) (iter : list root -> list root) (a b : nat).
  Let P := search_precision dflt prec.
  Let x := fserial_context rnd64 tx ty f df dflt reRan imRan prec.
  Let out := fcalculateRoots rnd64 py_round tx ty f df dflt
    (fargument_algorithm rnd64 tx ty E Simple depth info s) reRan imRan prec (rc_init p sp).
  Hypothesis HI : iteration_order iter.
  Hypothesis S1 : scale k tx (pow10 (- fst P)).
  Hypothesis S2 : scale k ty (pow10 (- snd P)).
  Hypothesis B1 : below (k - 1) reRan.
  Hypothesis B2 : below (k - 1) imRan.
  Hypothesis Ha : halvings (Qabs (fst reRan - snd reRan) + 4 * pow10 (- fst P)) (fst P) a.
  Hypothesis Hb : halvings (Qabs (fst imRan - snd imRan) + 8 * pow10 (- snd P)) (snd P) b.
  Hypothesis Hd : (a + b + 4 < depth)%nat.
  Hypothesis HR : reliable64 E zeros tx ty (rect_of x).

  Lemma py_canon n y : Qred (py_round n y) = py_round n y.
  Proof. apply rnd64_canon. Qed.
  Lemma py_double n y : is_double (py_round n y).
  Proof. apply is_double_iff, (rnd_idem _ rounding64). Qed.

  Lemma serial64 :
    snd out = Ok tt /\
    let pairs := reported_pairs iter (fst out) in
    all_doubles pairs /\
    all_found (5 / 4) P zeros reRan imRan pairs /\
    genuine64 (5 / 4) P P zeros reRan imRan pairs /\
    (separated (5 / 4) P zeros -> orders64 (5 / 4) P P zeros reRan imRan pairs) /\
    (separated (5 / 2) P zeros -> exactly_once (5 / 4) P zeros reRan imRan pairs).
  Proof.
    pose proof (frect_halvings f df dflt reRan imRan prec k tx ty S1 S2 B1 B2 a b Ha Hb) as [Ha' Hb'].
    pose proof (frect_proper f df dflt reRan imRan prec k tx ty S1 S2 B1 B2) as Hp.
    pose proof (frect_size f df dflt reRan imRan prec k tx ty S1 S2 B1 B2) as Hz.
    pose proof (frect_double f df dflt reRan imRan prec tx ty) as Hdb.
    fold x in Ha', Hb', Hp, Hz, Hdb.
    destruct (falgorithm_core E zeros tx ty k depth info s x _ _ (sc_k _ _ _ S1) (sc_double _ _ _ S1)
      (sc_double _ _ _ S2) (sc_low _ _ _ S1) (sc_low _ _ _ S2) Hp Hdb Hz Ha' Hb' ltac:(lia) HR) as [He Hq].
    set (run := fargument_algorithm rnd64 tx ty E Simple depth info s x) in *.
    destruct (fresh_ffeed py_round py_canon (toFilterContext x) (ar_reports run) p sp iter HI) as [F1 F2].
    assert (Hout : out = (fst (ffeed py_round (toFilterContext x) (ar_reports run) (rc_init p sp)), Ok tt)).
    { unfold out, fcalculateRoots. fold x. fold run. cbv zeta.
      destruct (ffeed py_round (toFilterContext x) (ar_reports run) (rc_init p sp)) as [c1 r1].
      cbn [snd] in F1. subst r1. rewrite He. reflexivity. }
    rewrite Hout. cbn [fst snd]. split; [reflexivity|]. cbv zeta.
    set (pairs := reported_pairs iter _) in *.
    change (fc_precision (toFilterContext x)) with P in F2.
    assert (Hpr : forall pr, In pr pairs <-> exists r, In r (map snd (ar_reports run)) /\ pr = froundRoot py_round r P).
    { intro pr. rewrite F2. split.
      - intros (i & r & H1 & H2). exists r. split; [|exact H2]. apply in_map_iff. exists (i, r). auto.
      - intros (r & H1 & H2). apply in_map_iff in H1. destruct H1 as ([i r'] & H1 & H3).
        cbn in H1. subst r'. exists i, r. auto. }
    destruct Hq as [Q1 Q2 Q3 Q4].
    set (qs := fcells E tx ty depth s x) in *.
    assert (Hcells : forall q, In q qs -> (1 <= count zeros q)%nat /\ (forall z, zin q z -> zin (rect_of x) z)).
    { intros q Hq. destruct (Q3 q Hq) as (C1 & C2 & C3 & C4 & C5 & C6). split; [exact C5|].
      intro z. apply sub_zin, C1. }
    assert (Hsmall : forall q z1 z2, In q qs -> zin q z1 -> zin q z2 ->
      (Rabs (fst z1 - fst z2) <= 5 / 4 * Q2R (pow10 (- fst P)) /\
       Rabs (snd z1 - snd z2) <= 5 / 4 * Q2R (pow10 (- snd P)))%R).
    { intros q z1 z2 Hq. destruct (Q3 q Hq) as (C1 & C2 & C3 & C4 & C5 & C6).
      apply (cell_small k tx ty P S1 S2 q C4). }
    assert (Hnear : forall q z o, In q qs -> zin q z ->
      within (5 / 4) P (fst (froundRoot py_round (fcenter rnd64 q, o) P)) z).
    { intros q z o Hq. destruct (Q3 q Hq) as (C1 & C2 & C3 & C4 & C5 & C6).
      apply (cell_py k tx ty P S1 S2 (rect_of x) q Hz C1 C2 C3 C4). }
    assert (Hsame : forall q q' z, In q qs -> In q' qs -> In z zeros -> zin q z -> zin q' z -> q = q').
    { intros q q' z Hq Hq' Hzz Z1 Z2.
      destruct (Q3 q Hq) as (_ & _ & _ & _ & _ & C5). destruct (Q3 q' Hq') as (_ & _ & _ & _ & _ & C5').
      exact (same_cell qs q q' z Q2 Hq Hq' (C5 z Hzz Z1) (C5' z Hzz Z2)). }
    assert (Hreq : forall z, requested reRan imRan z -> zin (rect_of x) z)
      by (intro z; apply (frect_requested f df dflt reRan imRan prec k tx ty S1 S2 B1 B2)).
    assert (Halm : forall z, zin (rect_of x) z -> about_requested P reRan imRan z)
      by (intro z; apply (frect_about f df dflt reRan imRan prec k tx ty S1 S2 B1 B2)).
    assert (Hsnd : forall r, snd (froundRoot py_round r P) = snd r) by reflexivity.
    split.
    { intros c j Hc. apply Hpr in Hc. destruct Hc as (r & _ & Er). injection Er as -> _.
      cbn [re im fst snd]. split; apply py_double. }
    split; [|split; [|split]].
    - eapply g_found with (cen := fcenter rnd64) (rr := fun r => froundRoot py_round r P); eassumption.
    - eapply g_genuine with (cen := fcenter rnd64) (rr := fun r => froundRoot py_round r P); eassumption.
    - intro Hs. eapply g_orders with (cen := fcenter rnd64) (rr := fun r => froundRoot py_round r P); eassumption.
    - intro Hs. assert (Hs1 : separated (5 / 4) P zeros).
      { intros z1 z2 H1 H2 A B. apply Hs; [exact H1|exact H2| |];
          pose proof (Q2R_pow10_pos (- fst P)); pose proof (Q2R_pow10_pos (- snd P)); Lra.lra. }
      replace (5 / 2)%R with (2 * (5 / 4))%R in Hs by field.
      eapply g_unique with (cen := fcenter rnd64) (rr := fun r => froundRoot py_round r P); eassumption.
  Qed.
End SerialSearch.
