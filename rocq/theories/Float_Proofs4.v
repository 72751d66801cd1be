(** Floating point: recursion bound, binary64 instances, the precision limit. *)
From Coq Require Import Reals Qreals.
From Flocq Require Import Core.
From Verif Require Import PyBase Rounding_Model Rounding_Proofs Poly_Model Refine_Model Refine_Spec
  Refine_Proofs Refine_Proofs2 Zeros_Spec Zeros_Proofs Refine_Proofs3 Refine_Examples
  Float_Model Float_Spec Float_Proofs Float_Proofs2 Float_Proofs3.
From Coq Require Import Lra.
Open Scope Z_scope.

(** ** Powers of two *)
Lemma pow2_Qpower e : (pow2 e == 2 ^ e)%Q.
Proof.
  unfold pow2. destruct (0 <=? e) eqn:H.
  - apply Z.leb_le in H. rewrite <- (Z2Nat.id e) by exact H. generalize (Z.to_nat e). intro n.
    rewrite Zpower_Qpower by lia. reflexivity.
  - apply Z.leb_gt in H. destruct e as [|p|p]; try lia. cbn [Z.opp Qpower].
    change (2 ^ Z.pos p) with (Z.pow_pos 2 p).
    assert (P : 0 < 2 ^ Z.pos p) by (apply Z.pow_pos_nonneg; lia).
    transitivity (/ inject_Z (2 ^ Z.pos p))%Q.
    + change (Z.pow_pos 2 p) with (2 ^ Z.pos p).
      destruct (2 ^ Z.pos p) as [|n|n]; try lia. reflexivity.
    + apply Qinv_comp. rewrite Zpower_Qpower by lia. reflexivity.
Qed.
Lemma Q2R_Qpower e : Q2R (2 ^ e)%Q = bpow radix2 e.
Proof. rewrite <- (Qeq_eqR _ _ (pow2_Qpower e)). apply Q2R_pow2. Qed.

(** ** The binary64 numbers *)
Lemma is_double_iff x : representable rnd64 x <-> is_double x.
Proof.
  rewrite representable64. assert (P : Prec_gt_0 53) by (unfold Prec_gt_0; lia). split; intro H.
  - apply FLT_format_generic in H; [|exact P]. destruct H as [f E1 E2 E3].
    exists (Fnum f), (Fexp f). split; [exact E2|]. split; [exact E3|]. apply eqR_Qeq. rewrite E1.
    unfold F2R. rewrite Q2R_mult, Q2R_Z, Q2R_Qpower. reflexivity.
  - destruct H as (m & e & H1 & H2 & H3). apply generic_format_FLT. apply Qeq_eqR in H3.
    rewrite Q2R_mult, Q2R_Z, Q2R_Qpower in H3.
    exists (Float radix2 m e); [exact H3|exact H1|exact H2].
Qed.

Lemma rnd64_nearest x y : is_double y -> (Qabs (rnd64 x - x) <= Qabs (y - x))%Q.
Proof.
  intro H. apply is_double_iff, representable64 in H. apply Rle_Qle.
  rewrite !Q2R_abs, !Q2R_minus, rnd64_flocq.
  pose proof valid64 as V64.
  destruct (round_N_pt radix2 (FLT_exp (-1074) 53) (fun n => negb (Z.even n)) (Q2R x)) as [_ HN].
  apply HN, H.
Qed.

(** ** The recursion bound *)
Section Bound.
  Context {S : Type} (rnd : Q -> Q) (tolRe tolIm : Q) (E : env S).
  Lemma frefines_simple self1 self2 r phi :
    (forall r phi, refines (self1 r phi) (self2 r phi)) ->
    refines (fdecide_simple rnd tolRe tolIm E self1 r phi) (fdecide_simple rnd tolRe tolIm E self2 r phi).
  Proof.
    intro H. unfold fdecide_simple.
    destruct (Qltb phi TWO_PI); [apply refines_refl|].
    destruct (_ && _); [apply refines_refl|].
    destruct (Qltb _ _); cbv zeta;
      (apply refines_bind; [apply refines_refl|intro p1]);
      (apply refines_bind; [apply H|intro u1]);
      (apply refines_bind; [apply refines_refl|intro u2]);
      (apply refines_bind; [apply refines_refl|intro p2]);
      (apply refines_bind; [apply H|intro u3]); apply refines_refl.
  Qed.
  Lemma fdecide_fuel v n : forall k r phi,
    refines (fdecideRefinement rnd tolRe tolIm E v n r phi) (fdecideRefinement rnd tolRe tolIm E v (n + k) r phi).
  Proof.
    induction n as [|n IH]; intros k r phi.
    - intros s s' l o H Ho. cbn in H. unfold out_of_fuel in H. congruence.
    - cbn [fdecideRefinement Nat.add]. destruct v.
      + apply frefines_simple, IH.
      + unfold fdecide_newton. destruct (_ && _); [apply refines_refl|].
        destruct (_ && _); [apply refines_refl|]. apply frefines_simple, IH.
      + unfold fdecide_poly. destruct (negb _); [apply refines_refl|].
        destruct (_ && _); [apply refines_refl|].
        destruct (_ && _); [apply refines_refl|]. apply frefines_simple, IH.
  Qed.
  Lemma fl_fuel v n m r s s' l o : (n <= m)%nat ->
    fcalcRoots rnd tolRe tolIm E v n r s = (s', l, o) -> o <> OutOfFuel ->
    fcalcRoots rnd tolRe tolIm E v m r s = (s', l, o).
  Proof.
    intros Hnm H Ho. unfold fcalcRoots in *.
    replace m with (n + (m - n))%nat by lia.
    revert H Ho. set (s0 := if e_dirty E s then _ else _). apply refines_bind; [apply refines_refl|].
    intro a. apply fdecide_fuel.
  Qed.
End Bound.

Lemma fl_exact {S} (E : env S) v fuel r s :
  fcalcRoots (fun x => x) (pow10 (- fst (e_precision E))) (pow10 (- snd (e_precision E))) E v fuel r s =
  calcRoots E v fuel r s.
Proof. reflexivity. Qed.

(** ** Termination in binary64 *)
Lemma depth64 {S} (E : env S) tolRe tolIm k v r s fuel a b s' l o :
  -1022 <= k -> is_double tolRe -> is_double tolIm ->
  (2 ^ (k - 49) <= tolRe)%Q -> (2 ^ (k - 49) <= tolIm)%Q ->
  proper r -> is_double (x1 r) -> is_double (x2 r) -> is_double (y1 r) -> is_double (y2 r) ->
  (- 2 ^ k <= x1 r)%Q -> (x2 r <= 2 ^ k)%Q -> (- 2 ^ k <= y1 r)%Q -> (y2 r <= 2 ^ k)%Q ->
  (x2 r - x1 r < inject_Z (2 ^ Z.of_nat a) * tolRe)%Q ->
  (y2 r - y1 r < inject_Z (2 ^ Z.of_nat b) * tolIm)%Q ->
  fcalcRoots rnd64 tolRe tolIm E v fuel r s = (s', l, o) ->
  ((a + b + 2 < fuel)%nat -> o <> OutOfFuel) /\
  (List.length (handled l) <= 4 * 2 ^ (a + b))%nat /\
  (List.length (estimated l) < 8 * 2 ^ (a + b))%nat.
Proof.
  intros Hk F1 F2 T1 T2 Pr R1 R2 R3 R4 B1 B2 B3 B4 Ha Hb H.
  assert (P : forall e, (0 < 2 ^ e)%Q).
  { intro e. rewrite <- pow2_Qpower. apply pow2_pos. }
  assert (U : forall t, (2 ^ (k - 49) <= t -> 16 * pow2 (k - 53) <= t)%Q).
  { intros t Ht. eapply Qle_trans; [|exact Ht]. rewrite pow2_Qpower.
    replace (k - 49) with (4 + (k - 53)) by lia. rewrite Qpower_plus by discriminate.
    change (2 ^ 4)%Q with 16%Q. apply Qle_refl. }
  apply is_double_iff in F1, F2, R1, R2, R3, R4.
  eapply (fl_depth rnd64 tolRe tolIm E rounding64) with (B := pow2 k) (u := pow2 (k - 53)); try eassumption.
  - eapply Qlt_le_trans; [apply P|exact T1].
  - eapply Qlt_le_trans; [apply P|exact T2].
  - apply accurate64, Hk.
  - apply U, T1.
  - apply U, T2.
  - repeat split; assumption.
  - unfold corners_below. rewrite pow2_Qpower. auto.
Qed.

(** ** Spacing *)
Lemma spacing k x : gf64 x -> (bpow radix2 k <= x)%R -> exists m, x = (IZR m * bpow radix2 (k - 52))%R.
Proof.
  intros H Hx.
  assert (M : (k + 1 <= mag radix2 x)%Z).
  { apply mag_ge_bpow. replace (k + 1 - 1) with k by lia.
    rewrite Rabs_right; [exact Hx|]. pose proof (bpow_gt_0 radix2 k). lra. }
  assert (C : k - 52 <= cexp radix2 (FLT_exp (-1074) 53) x) by (unfold cexp, FLT_exp; lia).
  unfold generic_format in H. set (c := cexp _ _ _) in *.
  exists (Ztrunc (scaled_mantissa radix2 (FLT_exp (-1074) 53) x) * 2 ^ (c - (k - 52))).
  rewrite H at 1. unfold F2R. cbn [Fnum Fexp]. fold c.
  rewrite mult_IZR, (IZR_Zpower radix2) by lia. rewrite Rmult_assoc, <- bpow_plus.
  f_equal. f_equal. lia.
Qed.

Lemma gap_pos k z a b : (bpow radix2 k <= z)%R -> (forall m, z <> IZR m * bpow radix2 (k - 52))%R ->
  gf64 a -> gf64 b -> (a <= z <= b)%R -> (bpow radix2 (k - 52) <= b - a)%R.
Proof.
  intros Hz Hm Ga Gb [Ha Hb].
  pose proof (bpow_gt_0 radix2 (k - 52)) as P. set (u := bpow radix2 (k - 52)) in *.
  assert (K : bpow radix2 k = (IZR (2 ^ 52) * u)%R).
  { rewrite (IZR_Zpower radix2) by lia. unfold u. rewrite <- bpow_plus. f_equal. lia. }
  assert (A : exists m, (a <= IZR m * u <= z)%R).
  { destruct (Rle_dec (bpow radix2 k) a) as [L|L].
    - destruct (spacing k a Ga L) as (m & Em). exists m. fold u in Em. lra.
    - exists (2 ^ 52). rewrite <- K. lra. }
  destruct A as (ma & A1 & A2).
  destruct (spacing k b Gb ltac:(lra)) as (mb & Em). fold u in Em.
  assert (A3 : (IZR ma * u < z)%R) by (destruct A2 as [A2|A2]; [exact A2|destruct (Hm ma); auto]).
  assert (LT : (IZR ma * u < IZR mb * u)%R) by lra.
  apply Rmult_lt_reg_r in LT; [|exact P]. apply lt_IZR in LT.
  assert (LE : (IZR (ma + 1) <= IZR mb)%R) by (apply IZR_le; lia).
  rewrite plus_IZR in LE. nra.
Qed.

Lemma gap k z a b : (bpow radix2 k <= Rabs z)%R -> (forall m, z <> IZR m * bpow radix2 (k - 52))%R ->
  gf64 a -> gf64 b -> (a <= z <= b)%R -> (bpow radix2 (k - 52) <= b - a)%R.
Proof.
  intros Hz Hm Ga Gb Hab. destruct (Rcase_abs z) as [N|N].
  - rewrite Rabs_left in Hz by exact N.
    assert (bpow radix2 (k - 52) <= - a - - b)%R; [|lra].
    apply (gap_pos k (- z)%R).
    + exact Hz.
    + intros m C. apply (Hm (- m)). rewrite opp_IZR. lra.
    + apply generic_format_opp, Gb.
    + apply generic_format_opp, Ga.
    + lra.
  - rewrite Rabs_right in Hz by exact N. apply (gap_pos k z); assumption.
Qed.

Lemma limit64 {S} (E : env S) tolRe tolIm zeros z k :
  is_double tolRe -> is_double tolIm ->
  In z zeros -> too_fine k tolRe (fst z) \/ too_fine k tolIm (snd z) ->
  forall r fuel s s' l o,
  proper r -> is_double (x1 r) -> is_double (x2 r) -> is_double (y1 r) -> is_double (y2 r) -> zin r z ->
  fcalcRoots rnd64 tolRe tolIm E Simple fuel r s = (s', l, o) -> good_run zeros l -> o = OutOfFuel.
Proof.
  intros F1 F2 Hz HL r fuel s s' l o Pr R1 R2 R3 R4 Hin H G.
  apply is_double_iff in F1, F2, R1, R2, R3, R4.
  assert (K : forall t w, too_fine k t w -> forall a b, representable rnd64 a -> representable rnd64 b ->
     (Q2R a <= w <= Q2R b)%R -> (t <= b - a)%Q).
  { intros t w (L1 & L2 & L3) a b Ra Rb Hab. apply representable64 in Ra, Rb.
    apply Qle_Rle in L1. rewrite Q2R_Qpower in L1. rewrite Q2R_Qpower in L2.
    apply Rle_Qle. rewrite Q2R_minus. eapply Rle_trans; [exact L1|].
    apply (gap k w); try assumption. intro m. rewrite <- Q2R_Qpower. apply L3. }
  eapply (fl_limit rnd64 tolRe tolIm E rounding64 F1 F2 zeros z Hz); try eassumption.
  - destruct HL as [HL|HL]; [left|right]; apply (K _ _ HL).
  - repeat split; assumption.
Qed.

(** ** A search that never ends although every estimate is right *)
Definition far_rect : rect := mkRect (inject_Z (2 ^ 53)) (inject_Z (2 ^ 53 + 2)) 0 (1 # 2).
Definition far_zero : cplx := (inject_Z (2 ^ 53 + 1), 1 # 3).
Definition far_env : env unit := exact_env [far_zero] (0, 0).

Lemma far_facts : proper far_rect /\
  is_double (x1 far_rect) /\ is_double (x2 far_rect) /\ is_double (y1 far_rect) /\ is_double (y2 far_rect) /\
  is_double 1 /\ zin far_rect (qpoint far_zero).
Proof.
  split; [split; discriminate|].
  do 5 (split; [apply is_double_iff; vm_compute; reflexivity|]).
  apply qin_zin. reflexivity.
Qed.

Definition far_left : rect := mkRect (inject_Z (2 ^ 53)) (inject_Z (2 ^ 53)) 0 (1 # 2).
Definition far_log : list event := [EvMoment 0 far_left (Ok (0, 0)%Q)].
Definition far_log' (l : list event) : list event :=
  EvMoment 0 far_left (Ok (0, 0)%Q) :: EvDiscard far_left 0 :: EvAdvance 0 ::
  EvMoment 0 far_rect (Ok (1, 0)%Q) :: l.

Lemma far_step self lB :
  self far_left 0%Q tt = (tt, [EvDiscard far_left 0; EvAdvance 0], Done tt) ->
  self far_rect 1%Q tt = (tt, lB, OutOfFuel) ->
  fdecide_simple rnd64 1 1 far_env self far_rect 1 tt = (tt, far_log' lB, OutOfFuel).
Proof.
  intros HA HB. unfold far_log'. vm_compute in HA, HB |- *. rewrite HA, HB. reflexivity.
Qed.
Lemma far_step0 self :
  self far_left 0%Q tt = (tt, [], OutOfFuel) ->
  fdecide_simple rnd64 1 1 far_env self far_rect 1 tt = (tt, far_log, OutOfFuel).
Proof. intros HA. vm_compute in HA |- *. rewrite HA. reflexivity. Qed.

Lemma far_decide n : exists l,
  fdecideRefinement rnd64 1 1 far_env Simple n far_rect 1 tt = (tt, l, OutOfFuel) /\
  forallb (good_event [far_zero]) l = true.
Proof.
  induction n as [|n (l & IH & G)].
  - exists []. split; reflexivity.
  - destruct n as [|n].
    + exists far_log. split; [|vm_compute; reflexivity]. cbn [fdecideRefinement]. apply far_step0. reflexivity.
    + exists (far_log' l). split.
      * remember (Datatypes.S n) as k eqn:Ek. cbn [fdecideRefinement].
        apply far_step; [|exact IH]. rewrite Ek. cbn [fdecideRefinement].
        vm_compute. reflexivity.
      * unfold far_log'. cbn [forallb]. rewrite G. vm_compute. reflexivity.
Qed.

Lemma far_never fuel : exists l,
  fcalcRoots rnd64 1 1 far_env Simple fuel far_rect tt = (tt, l, OutOfFuel) /\
  good_run (map qpoint [far_zero]) l.
Proof.
  destruct (far_decide fuel) as (l & H & G).
  exists (EvMoment 0 far_rect (Ok (1, 0)%Q) :: l). split.
  - unfold fcalcRoots. cbn [far_env exact_env e_dirty]. unfold mbind, calcMoment. cbn [e_est far_env exact_env].
    change (inject_Z (Z.of_nat (qcount [far_zero] far_rect))) with 1%Q. cbn [re fst].
    fold far_env. change (exact_env [far_zero] (0, 0)) with far_env. rewrite H. reflexivity.
  - apply good_events. cbn [forallb]. rewrite G. vm_compute. reflexivity.
Qed.

Lemma never_ends64 : exists (E : env unit) (zeros : list point) (r : rect),
  proper r /\ is_double (x1 r) /\ is_double (x2 r) /\ is_double (y1 r) /\ is_double (y2 r) /\
  (exists z, In z zeros /\ zin r z) /\
  forall fuel, exists s' l,
    fcalcRoots rnd64 1 1 E Simple fuel r tt = (s', l, OutOfFuel) /\ good_run zeros l.
Proof.
  exists far_env, (map qpoint [far_zero]), far_rect. destruct far_facts as (A & B & C & D & F & _ & G).
  repeat (split; [assumption|]). split; [exists (qpoint far_zero); split; [left; reflexivity|exact G]|].
  intro fuel. destruct (far_never fuel) as (l & H). exists tt, l. exact H.
Qed.

Lemma rnd64_spec :
  rounding rnd64 /\
  (forall x, is_double (rnd64 x)) /\
  (forall x, representable rnd64 x <-> is_double x) /\
  (forall x y, is_double y -> (Qabs (rnd64 x - x) <= Qabs (y - x))%Q) /\
  (forall x, Q2R (rnd64 x) = round radix2 (FLT_exp (-1074) 53) ZnearestE (Q2R x)).
Proof.
  split; [exact rounding64|]. split; [intro x; apply is_double_iff, (rnd_idem _ rounding64)|].
  split; [exact is_double_iff|]. split; [exact rnd64_nearest|exact rnd64_flocq].
Qed.

Lemma float_demo : exists s' l,
  let t := rnd64 (1 # 10) in
  fcalcRoots rnd64 t t demo_env Simple 13 demo_rect tt = (s', l, Done tt) /\
  is_double t /\ ~ (t == 1 # 10)%Q /\ (2 ^ (1 - 49) <= t)%Q /\
  proper demo_rect /\ float_rect rnd64 demo_rect /\ good_run demo_zeros l /\
  count demo_zeros demo_rect = 3%nat /\ map snd (located l) = [2; 1] /\
  (x2 demo_rect - x1 demo_rect < inject_Z (2 ^ Z.of_nat 5) * t)%Q.
Proof.
  eexists. eexists. cbv zeta. split; [vm_compute; reflexivity|].
  split; [apply is_double_iff, (rnd_idem _ rounding64)|].
  split; [intro C; apply Qeq_bool_iff in C; vm_compute in C; discriminate|].
  split; [apply Qle_bool_iff; vm_compute; reflexivity|].
  split; [split; discriminate|].
  split; [repeat split; vm_compute; reflexivity|].
  split; [apply good_events; vm_compute; reflexivity|].
  split; [unfold demo_zeros; rewrite count_qcount; vm_compute; reflexivity|].
  split; [vm_compute; reflexivity|]. vm_compute. reflexivity.
Qed.

Lemma far_too_fine : too_fine 53 1 (fst (qpoint far_zero)).
Proof.
  unfold too_fine, qpoint, far_zero. cbn [fst re].
  rewrite !Q2R_Qpower, Q2R_Z. split; [discriminate|].
  change (53 - 52) with 1. change (bpow radix2 1) with 2%R.
  rewrite <- (IZR_Zpower radix2) by lia. split.
  - rewrite Rabs_right by (apply Rle_ge, IZR_le; discriminate). apply IZR_le. discriminate.
  - intros m C. rewrite <- mult_IZR in C. apply eq_IZR in C. lia.
Qed.
