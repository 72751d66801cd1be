(** * The moments of a rectangle *)
From Coq Require Import Reals Qreals.
From Verif Require Import PyBase Refine_Model Zeros_Spec Sum_Model Sum_Spec Quad_Model Quad_Spec Quad_Proofs Quad_Proofs2
  Arg_Spec Moment_Spec Arg_Proofs Arg_Proofs2 Romb_Proofs Moment_Proofs Moment_Proofs2 Moment_Proofs3.
From Coq Require Import Lqa Lra.
Open Scope R_scope.

Definition side4 (r : rect) : list (bool * Q * Q * Q) :=
  [(true, y1 r, x1 r, x2 r); (false, x2 r, y1 r, y2 r); (true, y2 r, x1 r, x2 r); (false, x1 r, y1 r, y2 r)].

Lemma border_side r h l a b t : (x1 r < x2 r)%Q -> (y1 r < y2 r)%Q -> In (h, l, a, b) (side4 r) ->
  Q2R a <= t <= Q2R b -> on_border r (put h t (Q2R l)).
Proof.
  intros Hx Hy HI Ht. apply Qlt_Rlt in Hx, Hy. cbn [side4 In] in HI.
  destruct HI as [E|[E|[E|[E|[]]]]]; injection E as <- <- <- <-; cbn [put]; unfold on_border, zin, zstrict; cbn [fst snd]; split; lra.
Qed.

Lemma Rabs_def2_le x e : Rabs x <= e -> - e <= x <= e.
Proof. unfold Rabs. destruct (Rcase_abs x); lra. Qed.

Section Rectangle.
  Variables (F DF : cR -> cR) (zeros : list point) (q Q : cR -> cR) (M D : R) (k : nat) (r : rect).
  Hypothesis Hx : (x1 r < x2 r)%Q.
  Hypothesis Hy : (y1 r < y2 r)%Q.
  Hypothesis LD : log_derivative F DF zeros q r.
  Hypothesis PO : primitive_on r Q (fun p => times (power p k) (q p)).
  Hypothesis CU : curvature M (moment_at F DF k) r.
  Hypothesis Dx : Q2R (x2 r) - Q2R (x1 r) <= D.
  Hypothesis Dy : Q2R (y2 r) - Q2R (y1 r) <= D.
  Let e := M * (D * D * D) / (3 * 4 ^ 10).
  Hypothesis small : e < 1 / 2000.
  Notation G := (moment_at F DF k).

  Lemma off_zero h l a b t w : In (h, l, a, b) (side4 r) -> Q2R a <= t <= Q2R b -> In w zeros ->
    minus_cR (put h t (Q2R l)) w <> (0, 0).
  Proof.
    intros HI Ht Hw C. pose proof (border_side r h l a b t Hx Hy HI Ht) as OB.
    apply (proj1 LD w Hw). replace w with (put h t (Q2R l)); [exact OB|].
    destruct (put h t (Q2R l)) as [u v], w as [w1 w2]. unfold minus_cR in C. cbn [fst snd] in C.
    injection C as C1 C2. apply pair_eq; lra.
  Qed.

  Lemma has_phi : exists Phi : bool -> R -> R -> cR,
    (forall h l a b t, In (h, l, a, b) (side4 r) -> Q2R a <= t <= Q2R b -> has_along h (Q2R l) t (Phi h (Q2R l)) G) /\
    turn Phi (Q2R (x1 r)) (Q2R (x2 r)) (Q2R (y1 r)) (Q2R (y2 r)) = times (0, 2 * PI) (power_sum zeros k r).
  Proof.
    destruct (rests_prim zeros k) as [R HR].
    exists (fun h l t => plus_cR (poles_prim h zeros k l t) (plus_cR (R (put h t l)) (Q (put h t l)))). split.
    - intros h l a b t HI Ht. pose proof (border_side r h l a b t Hx Hy HI Ht) as OB.
      destruct (proj2 LD _ OB) as [_ E].
      apply (along_ext h (Q2R l) t _ (fun p => plus_cR (csum (map (fun w => times (power w k) (quotient (1, 0) (minus_cR p w))) zeros))
          (plus_cR (csum (map (fun w => rest w k p) zeros)) (times (power p k) (q p))))).
      + symmetry. apply (moment_split F DF zeros q k); [|exact E]. intros w Hw. exact (off_zero h l a b t w HI Ht Hw).
      + apply (along_plus h (Q2R l) t (poles_prim h zeros k (Q2R l))
          (fun p => csum (map (fun w => times (power w k) (quotient (1, 0) (minus_cR p w))) zeros))
          (fun s => plus_cR (R (put h s (Q2R l))) (Q (put h s (Q2R l))))
          (fun p => plus_cR (csum (map (fun w => rest w k p) zeros)) (times (power p k) (q p)))).
        * apply along_poles. intros w Hw. exact (off_zero h l a b t w HI Ht Hw).
        * apply along_plus; apply along_prim; [apply HR|].
          destruct OB as [OB _]. destruct (put h t (Q2R l)) as [u v] eqn:EP.
          destruct (PO u v OB) as (P1 & P2 & P3 & P4). unfold prim. cbn [fst snd]. auto.
    - rewrite turn_plus, turn_poles by (assumption || exact (proj1 LD)).
      rewrite (turn_plus (fun h l t => R (put h t l)) (fun h l t => Q (put h t l))), !turn_prim, !plus_0. reflexivity.
  Qed.

  Lemma M_nonneg : 0 <= M.
  Proof.
    destruct (CU fst (or_introl eq_refl)) as [(g1 & g2 & H) _]. pose proof (Qlt_Rlt _ _ Hx).
    destruct (H (Q2R (x1 r)) ltac:(lra)) as (_ & _ & B). pose proof (Rabs_pos (g2 (Q2R (x1 r)))). lra.
  Qed.

  Lemma side_lt h l a b : In (h, l, a, b) (side4 r) -> (a < b)%Q /\ Q2R b - Q2R a <= D.
  Proof. cbn [side4 In]. intros [E|[E|[E|[E|[]]]]]; injection E as <- <- <- <-; split; assumption. Qed.

  Lemma side_err h l a b : In (h, l, a, b) (side4 r) -> err a b M 10 <= e.
  Proof.
    intro HI. destruct (side_lt h l a b HI) as [L1 L2]. apply Qlt_Rlt in L1. unfold err, e, Rdiv.
    apply Rmult_le_compat_r; [apply Rlt_le, Rinv_0_lt_compat; assert (0 < 4 ^ 10) by (apply pow_lt; lra); lra|].
    apply Rmult_le_compat_l; [apply M_nonneg|].
    apply Rmult_le_compat; [apply Rmult_le_pos; lra|lra| |exact L2].
    apply Rmult_le_compat; lra.
  Qed.

  Lemma side_bend h l a b : In (h, l, a, b) (side4 r) -> forall part : cR -> R, part = fst \/ part = snd ->
    bends_at_most M (fun t => part (G (put h t (Q2R l)))) (Q2R a) (Q2R b).
  Proof.
    intros HI part HP. destruct (CU part HP) as (C1 & C2 & C3 & C4).
    cbn [side4 In] in HI. destruct HI as [E|[E|[E|[E|[]]]]]; injection E as <- <- <- <-; assumption.
  Qed.

  Lemma line_rev A B I : line_value B A I = neg_cR (line_value A B I).
  Proof.
    unfold line_value, neg_cR, times. rewrite (distance_sym B A). cbn [fst snd]. rewrite !Q2R_minus. apply pair_eq; unfold Rdiv; ring.
  Qed.

  Lemma side_runs prec fuel h l a b : In (h, l, a, b) (side4 r) -> (2 <= fuel)%nat ->
    let V := line_value (mkpoint h l a) (mkpoint h l b) (rule romberg (called G) (mkpoint h l a) (mkpoint h l b) 10) in
    quad_line romberg (called F) (Some (called DF)) prec fuel k (mkpoint h l a) (mkpoint h l b) = QuadOk [] V /\
    quad_line romberg (called F) (Some (called DF)) prec fuel k (mkpoint h l b) (mkpoint h l a) = QuadOk [] (neg_cR V).
  Proof.
    intros HI HF V. destruct (side_lt h l a b HI) as [L1 _]. pose proof (Qlt_Rlt _ _ L1) as L1'.
    destruct has_phi as (Phi & PA & _).
    assert (CL : close_to (rule romberg (called G) (mkpoint h l a) (mkpoint h l b) 11) (rule romberg (called G) (mkpoint h l a) (mkpoint h l b) 10)).
    { apply (converges G h l a b M L1 M_nonneg (Phi h (Q2R l))).
      - intros t Ht. exact (PA h l a b t HI Ht).
      - apply (side_bend h l a b HI).
      - eapply Rle_lt_trans; [apply (side_err h l a b HI)|exact small]. }
    assert (PT : forall u v, (u <= b)%Q -> (a <= u)%Q -> (v <= b)%Q -> (a <= v)%Q -> forall N i, (1 <= N)%nat -> (i <= N)%nat ->
      F (real_point (point_at (mkpoint h l u) (mkpoint h l v) N i)) <> (0, 0)).
    { intros u v U1 U2 V1 V2 N i HN Hi. rewrite point_at_put by exact HN. apply (proj2 LD).
      apply (border_side r h l a b _ Hx Hy HI). apply Qle_Rle in U1, U2, V1, V2.
      assert (T : 0 <= INR i / INR N <= 1).
      { apply le_INR in HN, Hi. change (INR 1) with 1 in HN. pose proof (pos_INR i).
        split; [unfold Rdiv; apply Rmult_le_pos; [assumption|apply Rlt_le, Rinv_0_lt_compat; lra]|].
        apply (Rmult_le_reg_r (INR N)); [lra|]. unfold Rdiv. rewrite Rmult_assoc, Rinv_l by lra. lra. }
      nra. }
    assert (PG : forall z z', ceq z z' -> called G z = called G z') by (apply called_proper).
    assert (RR : forall n, rule romberg (called G) (mkpoint h l b) (mkpoint h l a) n = rule romberg (called G) (mkpoint h l a) (mkpoint h l b) n).
    { intro n. apply rule_rev; [intros; eapply romberg_rev; eassumption|exact PG]. }
    split.
    - apply quad_first; [apply PT; Lqa.lra|exact CL|exact HF].
    - rewrite quad_first; [|apply PT; Lqa.lra|rewrite !RR; exact CL|exact HF]. rewrite line_rev, RR. reflexivity.
  Qed.

  Lemma moments_lemma prec fuel : (2 <= fuel)%nat ->
    exists v1 v2 v3 v4,
      quad_line romberg (called F) (Some (called DF)) prec fuel k (x1 r, y1 r) (x2 r, y1 r) = QuadOk [] v1 /\
      quad_line romberg (called F) (Some (called DF)) prec fuel k (x2 r, y1 r) (x2 r, y2 r) = QuadOk [] v2 /\
      quad_line romberg (called F) (Some (called DF)) prec fuel k (x2 r, y2 r) (x1 r, y2 r) = QuadOk [] v3 /\
      quad_line romberg (called F) (Some (called DF)) prec fuel k (x1 r, y2 r) (x1 r, y1 r) = QuadOk [] v4 /\
      Rabs (fst v1 + fst v2 + fst v3 + fst v4 - 2 * PI * fst (power_sum zeros k r)) <= 4 * e /\
      Rabs (snd v1 + snd v2 + snd v3 + snd v4 - 2 * PI * snd (power_sum zeros k r)) <= 4 * e.
  Proof.
    intro HF.
    set (S1 := (true, y1 r, x1 r, x2 r)). set (S2 := (false, x2 r, y1 r, y2 r)).
    set (S3 := (true, y2 r, x1 r, x2 r)). set (S4 := (false, x1 r, y1 r, y2 r)).
    assert (I1 : In S1 (side4 r)) by (left; reflexivity). assert (I2 : In S2 (side4 r)) by (right; left; reflexivity).
    assert (I3 : In S3 (side4 r)) by (right; right; left; reflexivity). assert (I4 : In S4 (side4 r)) by (right; right; right; left; reflexivity).
    destruct (side_runs prec fuel _ _ _ _ I1 HF) as [R1 _]. destruct (side_runs prec fuel _ _ _ _ I2 HF) as [R2 _].
    destruct (side_runs prec fuel _ _ _ _ I3 HF) as [_ R3]. destruct (side_runs prec fuel _ _ _ _ I4 HF) as [_ R4].
    do 4 eexists. split; [exact R1|]. split; [exact R2|]. split; [exact R3|]. split; [exact R4|].
    destruct has_phi as (Phi & PA & TU).
    assert (VE : forall h l a b, In (h, l, a, b) (side4 r) ->
      let V := line_value (mkpoint h l a) (mkpoint h l b) (rule romberg (called G) (mkpoint h l a) (mkpoint h l b) 10) in
      Rabs (fst V - (snd (Phi h (Q2R l) (Q2R b)) - snd (Phi h (Q2R l) (Q2R a)))) <= e /\
      Rabs (snd V - - (fst (Phi h (Q2R l) (Q2R b)) - fst (Phi h (Q2R l) (Q2R a)))) <= e).
    { intros h l a b HI V. destruct (side_lt h l a b HI) as [L1 _].
      destruct (value_error G h l a b M L1 M_nonneg (Phi h (Q2R l)) (fun t Ht => PA h l a b t HI Ht) (side_bend h l a b HI) 10) as [E1 E2].
      pose proof (side_err h l a b HI). split; eapply Rle_trans; eassumption. }
    destruct (VE _ _ _ _ I1) as [A1 B1]. destruct (VE _ _ _ _ I2) as [A2 B2].
    destruct (VE _ _ _ _ I3) as [A3 B3]. destruct (VE _ _ _ _ I4) as [A4 B4].
    clear VE R1 R2 R3 R4 PA.
    unfold turn, plus_cR, minus_cR, times in TU. cbn [fst snd] in TU. injection TU as T1 T2.
    unfold neg_cR. cbn [fst snd mkpoint] in *.
    repeat match goal with |- context [line_value ?a ?b ?c] => let V := fresh "V" in set (V := line_value a b c) in * end.
    clearbody V V0 V1 V2.
    repeat match goal with H : Rabs ?x <= e |- _ => apply Rabs_def2_le in H end.
    split; apply Rabs_le; lra.
  Qed.
End Rectangle.
