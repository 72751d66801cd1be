(** * The error of scipy's Romberg rule *)
From Coq Require Import Reals Lra Lia List.
From Verif Require Import PyBase Sum_Model Sum_Spec Quad_Model Quad_Spec.
From Coq Require Import Lra.
Open Scope R_scope.

(** ** Integrands: a function with its primitive, and a bound of the second derivative *)
Definition smooth (a b M : R) (y Y : R -> R) : Prop :=
  exists y1 y2 : R -> R, forall t, a <= t <= b ->
    derivable_pt_lim Y t (y t) /\ derivable_pt_lim y t (y1 t) /\ derivable_pt_lim y1 t (y2 t) /\ Rabs (y2 t) <= M.

Lemma mono_zero (F F' : R -> R) h : 0 <= h -> F 0 = 0 ->
  (forall t, 0 <= t <= h -> derivable_pt_lim F t (F' t)) -> (forall t, 0 <= t <= h -> 0 <= F' t) -> 0 <= F h.
Proof.
  intros [H|<-] Z D P; [|lra]. destruct (MVT_cor2 F F' 0 h H D) as (c & E & C).
  specialize (P c ltac:(lra)). rewrite Z in E. nra.
Qed.

Lemma bounded_by (F F' G G' : R -> R) h : 0 <= h -> F 0 = 0 -> G 0 = 0 ->
  (forall t, 0 <= t <= h -> derivable_pt_lim F t (F' t)) -> (forall t, 0 <= t <= h -> derivable_pt_lim G t (G' t)) ->
  (forall t, 0 <= t <= h -> Rabs (F' t) <= G' t) -> Rabs (F h) <= G h.
Proof.
  intros H F0 G0 DF DG B.
  pose proof (mono_zero (fun t => G t - F t) (fun t => G' t - F' t) h H ltac:(lra)
    (fun t I => derivable_pt_lim_minus G F t _ _ (DG t I) (DF t I))) as A.
  pose proof (mono_zero (fun t => G t + F t) (fun t => G' t + F' t) h H ltac:(lra)
    (fun t I => derivable_pt_lim_plus G F t _ _ (DG t I) (DF t I))) as A'.
  apply Rabs_le. split.
  - assert (0 <= G h + F h); [|lra]. apply A'. intros t I. specialize (B t I). revert B. unfold Rabs. destruct (Rcase_abs _); lra.
  - assert (0 <= G h - F h); [|lra]. apply A. intros t I. specialize (B t I). revert B. unfold Rabs. destruct (Rcase_abs _); lra.
Qed.

Lemma lim_shift (F : R -> R) a t l : derivable_pt_lim F (a + t) l -> derivable_pt_lim (fun s => F (a + s)) t l.
Proof.
  intros D. assert (E : l = l * 1) by ring. rewrite E.
  apply (derivable_pt_lim_comp (fun s => a + s) F t 1 l); [|exact D].
  replace 1 with (0 + 1) by ring. apply (derivable_pt_lim_plus (fct_cte a) id); [apply derivable_pt_lim_const|apply derivable_pt_lim_id].
Qed.
Lemma lim_scale (c : R) F t l : derivable_pt_lim F t l -> derivable_pt_lim (fun s => c * F s) t (c * l).
Proof. intro D. apply derivable_pt_lim_scal, D. Qed.
Lemma lim_id t : derivable_pt_lim (fun s => s) t 1. Proof. apply derivable_pt_lim_id. Qed.
Lemma lim_eq F t l l' : derivable_pt_lim F t l -> l = l' -> derivable_pt_lim F t l'.
Proof. intros D <-. exact D. Qed.
Lemma lim_ext F G t l : (forall s, F s = G s) -> derivable_pt_lim F t l -> derivable_pt_lim G t l.
Proof.
  intros E D eps He. destruct (D eps He) as [d Hd]. exists d. intros h H1 H2. rewrite <- !E. apply Hd; assumption.
Qed.

Lemma trap_cell a b M y Y h : smooth a b M y Y -> 0 <= h -> a + h <= b -> 0 <= M ->
  Rabs (h * ((y a + y (a + h)) / 2) - (Y (a + h) - Y a)) <= M * (h * h * h) / 12.
Proof.
  intros (y1 & y2 & D) Hh Hb HM.
  set (E1 := fun t => (y a - y (a + t)) / 2 + t / 2 * y1 (a + t)).
  assert (B1 : forall s, 0 <= s <= h -> Rabs (E1 s) <= M * (s * s) / 4).
  { intros s Hs. apply (bounded_by E1 (fun t => t / 2 * y2 (a + t)) (fun t => M * (t * t) / 4) (fun t => M * t / 2)); try lra.
    - unfold E1. rewrite Rplus_0_r. field.
    - intros t Ht. destruct (D (a + t) ltac:(lra)) as (_ & D1 & D2 & _).
      eapply lim_eq; [eapply (derivable_pt_lim_plus (fun t => (y a - y (a + t)) / 2) (fun t => t / 2 * y1 (a + t)))|].
      + eapply (lim_ext (fun t => / 2 * (y a - y (a + t)))); [intro; field|].
        apply lim_scale. apply (derivable_pt_lim_minus (fct_cte (y a)) (fun t => y (a + t))); [apply derivable_pt_lim_const|apply lim_shift, D1].
      + apply (derivable_pt_lim_mult (fun t => t / 2) (fun t => y1 (a + t))).
        * eapply (lim_ext (fun t => / 2 * t)); [intro; field|]. apply lim_scale, lim_id.
        * apply lim_shift, D2.
      + cbn beta. field.
    - intros t Ht. eapply lim_eq; [eapply (lim_ext (fun t => M / 4 * (t * t))); [intro; field|]|].
      + apply lim_scale. apply (derivable_pt_lim_mult (fun t => t) (fun t => t)); apply lim_id.
      + cbn beta. field.
    - intros t Ht. destruct (D (a + t) ltac:(lra)) as (_ & _ & _ & B). rewrite Rabs_mult, (Rabs_pos_eq (t / 2)) by lra. nra. }
  set (E := fun t => t * ((y a + y (a + t)) / 2) - (Y (a + t) - Y a)).
  apply (bounded_by E E1 (fun t => M * (t * t * t) / 12) (fun t => M * (t * t) / 4)); try lra.
  - unfold E. rewrite Rplus_0_r. ring.
  - intros t Ht. destruct (D (a + t) ltac:(lra)) as (D0 & D1 & _ & _).
    eapply lim_eq; [apply (derivable_pt_lim_minus (fun t => t * ((y a + y (a + t)) / 2)) (fun t => Y (a + t) - Y a))|].
    + apply (derivable_pt_lim_mult (fun t => t) (fun t => (y a + y (a + t)) / 2)); [apply lim_id|].
      eapply (lim_ext (fun t => / 2 * (y a + y (a + t)))); [intro; field|].
      apply lim_scale. apply (derivable_pt_lim_plus (fct_cte (y a)) (fun t => y (a + t))); [apply derivable_pt_lim_const|apply lim_shift, D1].
    + apply (derivable_pt_lim_minus (fun t => Y (a + t)) (fct_cte (Y a))); [apply lim_shift, D0|apply derivable_pt_lim_const].
    + unfold E1. cbn beta. field.
  - intros t Ht. eapply lim_eq; [eapply (lim_ext (fun t => M / 12 * (t * t * t))); [intro; field|]|].
    + apply lim_scale. apply (derivable_pt_lim_mult (fun t => t * t) (fun t => t)); [|apply lim_id].
      apply (derivable_pt_lim_mult (fun t => t) (fun t => t)); apply lim_id.
    + cbn beta. field.
  - exact B1.
Qed.

Lemma trap_sum a b M y Y h : smooth a b M y Y -> 0 <= h -> 0 <= M -> forall n, a + INR (S n) * h <= b ->
  Rabs (h * ((y a + y (a + INR (S n) * h)) / 2 + Rsum (map (fun m => y (a + INR m * h)) (seq 1 n)))
        - (Y (a + INR (S n) * h) - Y a)) <= INR (S n) * (M * (h * h * h) / 12).
Proof.
  intros D Hh HM. induction n as [|n IH]; intro Hb.
  - cbn [seq map INR] in *. rewrite !Rmult_1_l in *. unfold Rsum. cbn [fold_left]. rewrite Rplus_0_r. apply (trap_cell a b); assumption.
  - specialize (IH ltac:(rewrite (S_INR (S n)), Rmult_plus_distr_r in Hb; lra)).
    assert (D' : smooth (a + INR (S n) * h) b M y Y).
    { destruct D as (y1 & y2 & D). exists y1, y2. intros t Ht. apply D.
      pose proof (pos_INR (S n)). nra. }
    pose proof (trap_cell _ _ _ _ _ h D' Hh ltac:(rewrite (S_INR (S n)) in Hb; lra) HM) as C.
    replace (a + INR (S n) * h + h) with (a + INR (S (S n)) * h) in C by (rewrite (S_INR (S n)); ring).
    rewrite seq_S, map_app. cbn [map].
    assert (RA : forall l x, Rsum (l ++ [x]) = Rsum l + x).
    { intros l x. unfold Rsum. rewrite fold_left_app. reflexivity. }
    rewrite RA. replace (1 + n)%nat with (S n) by lia.
    rewrite (S_INR (S n)) at 3. rewrite Rmult_plus_distr_r, Rmult_1_l.
    set (A := y (a + INR (S n) * h)) in *. set (B := y (a + INR (S (S n)) * h)) in *.
    set (YA := Y (a + INR (S n) * h)) in *. set (YB := Y (a + INR (S (S n)) * h)) in *.
    set (S0 := Rsum _) in *.
    match goal with |- Rabs ?x <= _ => replace x with
      ((h * ((y a + A) / 2 + S0) - (YA - Y a)) + (h * ((A + B) / 2) - (YB - YA))) by field end.
    eapply Rle_trans; [apply Rabs_triang|]. lra.
Qed.

(** ** Extrapolation *)
Section Extrapolation.
  Variables (a b M : R) (y Y : R -> R) (k : nat).
  Hypothesis D : smooth a b M y Y.
  Hypothesis ab : a <= b.
  Hypothesis M0 : 0 <= M.
  Let step := (b - a) / 2 ^ k.
  Variable l : list R.
  Hypothesis sampled : forall j, (j <= 2 ^ k)%nat -> nth j l 0 = y (a + INR j * step).

  Lemma pow2_R i : INR (2 ^ i) = 2 ^ i. Proof. rewrite pow_INR. reflexivity. Qed.
  Lemma pow2_R0 i : 0 < 2 ^ i. Proof. apply pow_lt. lra. Qed.
  Lemma pow4_R i : 4 ^ i = 2 ^ i * 2 ^ i. Proof. rewrite <- Rpow_mult_distr. replace (2 * 2) with 4 by lra. reflexivity. Qed.

  Lemma trapezoid_error i : (i <= k)%nat ->
    Rabs (trapezoid l step k i - (Y b - Y a)) <= M * ((b - a) * (b - a) * (b - a)) / 12 / 4 ^ i.
  Proof.
    intro Hi. unfold trapezoid.
    assert (PW : (2 ^ k = 2 ^ i * 2 ^ (k - i))%nat) by (rewrite <- Nat.pow_add_r; f_equal; lia).
    assert (PR : 2 ^ k = 2 ^ i * 2 ^ (k - i)) by (rewrite <- pow_add; f_equal; lia).
    pose proof (pow2_R0 k) as P1. pose proof (pow2_R0 i) as P2. pose proof (pow2_R0 (k - i)) as P3.
    set (h := (b - a) / 2 ^ i).
    assert (Hh : 0 <= h) by (unfold h, Rdiv; apply Rmult_le_pos; [lra|apply Rlt_le, Rinv_0_lt_compat; exact P2]).
    assert (SH : step * INR (2 ^ (k - i)) = h) by (unfold step, h; rewrite pow2_R, PR; field; lra).
    assert (N1 : (1 <= 2 ^ i)%nat) by (pose proof (Nat.pow_nonzero 2 i); lia).
    assert (EN : a + INR (S (2 ^ i - 1)) * h = b).
    { replace (S (2 ^ i - 1)) with (2 ^ i)%nat by lia. unfold h. rewrite pow2_R. field. lra. }
    pose proof (trap_sum a b M y Y h D Hh M0 (2 ^ i - 1) ltac:(rewrite EN; lra)) as T.
    rewrite EN in T.
    rewrite (sampled 0%nat) by lia. rewrite (sampled (2 ^ k)%nat) by lia.
    replace (a + INR 0 * step) with a by (cbn; ring).
    replace (a + INR (2 ^ k) * step) with b by (unfold step; rewrite pow2_R; field; lra).
    rewrite SH.
    assert (EM : map (fun m => nth (m * 2 ^ (k - i)) l 0) (seq 1 (2 ^ i - 1)) = map (fun m => y (a + INR m * h)) (seq 1 (2 ^ i - 1))).
    { apply map_ext_in. intros m Hm. apply in_seq in Hm. rewrite sampled by (rewrite PW; apply Nat.mul_le_mono_r; lia).
      rewrite mult_INR, <- SH. do 2 f_equal. ring. }
    rewrite EM.
    eapply Rle_trans; [exact T|]. apply Req_le. replace (S (2 ^ i - 1)) with (2 ^ i)%nat by lia. rewrite pow2_R, pow4_R. unfold h. field. lra.
  Qed.

  (** The constant of the j-th column. *)
  Fixpoint column (j : nat) : R :=
    match j with O => 1 | S j' => column j' * (1 + 5 / (4 ^ j - 1)) end.

  Lemma pow4_gt j : 3 < 4 ^ S j.
  Proof. pose proof (Rle_pow 4 1 (S j) ltac:(lra) ltac:(lia)). lra. Qed.
  Lemma column_pos j : 0 < column j.
  Proof.
    induction j as [|j IH]; [cbn; lra|]. cbn [column]. apply Rmult_lt_0_compat; [exact IH|].
    pose proof (pow4_gt j). assert (0 < 5 / (4 ^ S j - 1)) by (apply Rdiv_lt_0_compat; lra). lra.
  Qed.
  Lemma column_bound j : column (S (S j)) <= 4 * (1 - 5 / (3 * 4 ^ S (S j))).
  Proof.
    induction j as [|j IH]; [cbn [column pow]; lra|].
    change (column (S (S (S j)))) with (column (S (S j)) * (1 + 5 / (4 ^ S (S (S j)) - 1))).
    pose proof (pow4_gt (S (S j))) as X. pose proof (pow4_gt (S j)) as Z.
    replace (4 ^ S (S (S j))) with (4 * 4 ^ S (S j)) in * by reflexivity.
    set (x := 4 ^ S (S j)) in *. clearbody x.
    assert (P : 0 < 1 + 5 / (4 * x - 1)) by (assert (0 < 5 / (4 * x - 1)) by (apply Rdiv_lt_0_compat; lra); lra).
    eapply Rle_trans; [apply Rmult_le_compat_r; [apply Rlt_le, P|exact IH]|].
    rewrite Rmult_assoc. apply Rmult_le_compat_l; [lra|].
    apply Rminus_le. replace ((1 - 5 / (3 * x)) * (1 + 5 / (4 * x - 1)) - (1 - 5 / (3 * (4 * x)))) with
      (- (85 / 12) / (x * (4 * x - 1))) by (field; lra).
    unfold Rdiv. assert (0 < / (x * (4 * x - 1))) by (apply Rinv_0_lt_compat; apply Rmult_lt_0_compat; lra). nra.
  Qed.
  Lemma column_le j : column j <= 4.
  Proof.
    destruct j as [|[|j]]; [cbn; lra|cbn; lra|]. eapply Rle_trans; [apply column_bound|].
    pose proof (pow4_gt (S j)). assert (0 < 5 / (3 * 4 ^ S (S j))) by (apply Rdiv_lt_0_compat; lra). lra.
  Qed.

  Lemma extrapolate_error : forall j i, (j <= i)%nat -> (i <= k)%nat ->
    Rabs (extrapolate l step k i j - (Y b - Y a)) <= M * ((b - a) * (b - a) * (b - a)) / 12 * column j / 4 ^ i.
  Proof.
    induction j as [|j IH]; intros i Hj Hi.
    - cbn [extrapolate column]. eapply Rle_trans; [apply trapezoid_error, Hi|]. apply Req_le. field. apply pow_nonzero; lra.
    - destruct i as [|i]; [lia|]. cbn [extrapolate column pred].
      pose proof (IH (S i) ltac:(lia) Hi) as A. pose proof (IH i ltac:(lia) ltac:(lia)) as B.
      pose proof (pow4_gt j) as X. set (x := 4 ^ S j) in *. set (I := Y b - Y a) in *.
      set (e := extrapolate l step k (S i) j) in *. set (e' := extrapolate l step k i j) in *.
      set (C := M * _ / 12) in *. 
      assert (P4 : 0 < 4 ^ i) by (apply pow_lt; lra).
      replace (e + (e - e') / (x - 1) - I) with ((x / (x - 1)) * (e - I) + - (/ (x - 1)) * (e' - I)) by (field; lra).
      eapply Rle_trans; [apply Rabs_triang|]. rewrite !Rabs_mult, Rabs_Ropp.
      rewrite (Rabs_pos_eq (x / (x - 1))) by (apply Rlt_le, Rdiv_lt_0_compat; lra).
      rewrite (Rabs_pos_eq (/ (x - 1))) by (apply Rlt_le, Rinv_0_lt_compat; lra).
      eapply Rle_trans; [apply Rplus_le_compat; [apply Rmult_le_compat_l; [apply Rlt_le, Rdiv_lt_0_compat; lra|exact A]|
        apply Rmult_le_compat_l; [apply Rlt_le, Rinv_0_lt_compat; lra|exact B]]|].
      apply Req_le. replace (4 ^ S i) with (4 * 4 ^ i) by reflexivity. field. lra.
  Qed.

  Lemma romberg_error : List.length l = S (2 ^ k) ->
    Rabs (romberg l step - (Y b - Y a)) <= M * ((b - a) * (b - a) * (b - a)) / (3 * 4 ^ k).
  Proof.
    intro L. unfold romberg. rewrite L. replace (S (2 ^ k) - 1)%nat with (2 ^ k)%nat by lia. rewrite Nat.log2_pow2 by lia.
    eapply Rle_trans; [apply extrapolate_error; lia|].
    assert (P4 : 0 < 4 ^ k) by (apply pow_lt; lra).
    assert (P : 0 <= M * ((b - a) * (b - a) * (b - a))).
    { apply Rmult_le_pos; [exact M0|]. repeat apply Rmult_le_pos; lra. }
    replace (M * ((b - a) * (b - a) * (b - a)) / (3 * 4 ^ k)) with (M * ((b - a) * (b - a) * (b - a)) / 12 * 4 / 4 ^ k) by (field; lra).
    unfold Rdiv. apply Rmult_le_compat_r; [apply Rlt_le, Rinv_0_lt_compat, P4|].
    apply Rmult_le_compat_l; [lra|apply column_le].
  Qed.
End Extrapolation.
