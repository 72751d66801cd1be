(** * The argument principle for the summation estimator (C69) *)
From Coq Require Import Reals Qreals.
From Verif Require Import PyBase Refine_Model Zeros_Spec Sum_Model Sum_Spec Angle_Proofs
  Sum_Proofs Sum_Proofs2 Sum_Proofs3 Sum_Proofs4 Sum_Proofs5 Sum_Proofs6 Arg_Spec Arg_Proofs Arg_Proofs2 Arg_Proofs3.
From Coq Require Import Lqa Lra.
Open Scope R_scope.

Definition wide (r : rect) : Prop := (x1 r < x2 r /\ y1 r < y2 r)%Q.
Definition inside (D r : rect) : Prop := (x1 D <= x1 r /\ x2 r <= x2 D /\ y1 D <= y1 r /\ y2 r <= y2 D)%Q.

(** The four sides: (horizontal?, level, from, to). *)
Definition side_list (r : rect) : list (bool * Q * Q * Q) :=
  [(true, y1 r, x1 r, x2 r); (false, x2 r, y1 r, y2 r); (true, y2 r, x1 r, x2 r); (false, x1 r, y1 r, y2 r)].

Lemma border_apart d r zeros : wide r -> 0 < d -> (forall w, In w zeros -> border_distance d r w) ->
  forall h l a b, In (h, l, a, b) (side_list r) -> apart d h l a b zeros.
Proof.
  intros [Wx Wy] Hd HB h l a b Hin w s Hw Hs. apply Qlt_Rlt in Wx, Wy.
  assert (K : forall p, on_border r p -> d * d <= (fst p - fst w) * (fst p - fst w) + (snd p - snd w) * (snd p - snd w)).
  { intros p Hp. specialize (HB w Hw p Hp). unfold dist_euc in HB.
    rewrite <- (sqrt_sqrt ((fst p - fst w) * (fst p - fst w) + (snd p - snd w) * (snd p - snd w)))
      by (apply Rplus_le_le_0_compat; apply Rle_0_sqr).
    unfold Rsqr in HB. apply Rmult_le_compat; lra. }
  cbn [side_list In] in Hin. unfold on_border, zin, zstrict in K.
  destruct Hin as [E|[E|[E|[E|[]]]]]; injection E as <- <- <- <-; cbn [along across].
  - apply (K (s, Q2R (y1 r))). cbn [fst snd]. split; [lra|]. intros [_ C]. lra.
  - rewrite Rplus_comm. apply (K (Q2R (x2 r), s)). cbn [fst snd]. split; [lra|]. intros [C _]. lra.
  - apply (K (s, Q2R (y2 r))). cbn [fst snd]. split; [lra|]. intros [_ C]. lra.
  - rewrite Rplus_comm. apply (K (Q2R (x1 r), s)). cbn [fst snd]. split; [lra|]. intros [C _]. lra.
Qed.

Lemma Q2R_nat n : Q2R (inject_Z (Z.of_nat n)) = INR n.
Proof. rewrite INR_IZR_INZ. unfold Q2R, inject_Z. cbn. lra. Qed.

Section Target.
  Variables (f : cplx -> cR) (zeros : list point) (L : R) (D : rect) (rho theta : cplx -> R).
  Hypothesis f_proper : forall z z', ceq z z' -> f z = f z'.
  Hypothesis L_pos : 0 <= L.
  Hypothesis f_eq : forall z, in_rect D z -> 0 < rho z /\
       f z = cmulR (zero_product zeros z) (rho z * cos (theta z), rho z * sin (theta z)).
  Hypothesis theta_lip : forall z z', in_rect D z -> in_rect D z' ->
       Rabs (theta z' - theta z) <= L * (Rabs (Q2R (re z' - re z)) + Rabs (Q2R (im z' - im z))).
  Variable eta : R.
  Notation Th := (Theta zeros theta).
  Notation fine := (fine f zeros D theta eta).

  Lemma side_in r : inside D r -> wide r -> forall h l a b, In (h, l, a, b) (side_list r) ->
    (a < b)%Q /\ in_rect D (mkpoint h l a) /\ in_rect D (mkpoint h l b).
  Proof.
    intros (I1 & I2 & I3 & I4) [W1 W2] h l a b Hin.
    unfold in_rect. destruct Hin as [E|[E|[E|[E|[]]]]]; injection E as <- <- <- <-; cbn; repeat split; Lqa.lra.
  Qed.

  Lemma sampled_fine n r : (2 <= n)%nat -> inside D r -> wide r -> well_sampled n eta L zeros r ->
    forall h l a b, In (h, l, a, b) (side_list r) -> fine n h l a b.
  Proof.
    intros Hn HI HW (d & Hd & HB & S1 & S2) h l a b Hin.
    pose proof (border_apart d r zeros HW Hd HB h l a b Hin) as A.
    destruct (side_in r HI HW h l a b Hin) as (Lab & Ia & Ib).
    split; [exact Lab|]. intros t t' T1 T2 T3 T4.
    assert (IN : forall s, (a <= s)%Q -> (s <= b)%Q -> in_rect D (mkpoint h l s)).
    { intros s. apply in_rect_between; assumption. }
    assert (S : Q2R (b - a) / INR (n - 1) * (L + INR (List.length zeros) / d) <= eta).
    { destruct Hin as [E|[E|[E|[E|[]]]]]; injection E as <- <- <- <-; assumption. }
    split; [exact T2|]. split; [apply IN; Lqa.lra|]. split; [apply IN; Lqa.lra|]. split.
    - intros s U1 U2. apply (Theta_polar f zeros D rho theta f_eq h l s d a b Hd A); [Lqa.lra|Lqa.lra|apply IN; Lqa.lra].
    - intros s s' U1 U2 U3.
      eapply Rle_trans; [apply (Theta_lip zeros L D theta L_pos theta_lip h l d a b s s' Hd A); [Lqa.lra|exact U2|Lqa.lra|apply IN; Lqa.lra|apply IN; Lqa.lra]|].
      eapply Rle_trans; [|exact S]. apply Rmult_le_compat_r.
      + apply Rplus_le_le_0_compat; [exact L_pos|]. apply Rmult_le_pos; [apply pos_INR|left; apply Rinv_0_lt_compat, Hd].
      + assert (N : (0 < inject_Z (Z.of_nat (n - 1)))%Q) by (change 0%Q with (inject_Z 0); rewrite <- Zlt_Qlt; clear - Hn; lia).
        rewrite <- Q2R_nat, <- Q2R_div by Lqa.lra. apply Qle_Rle. Lqa.lra.
  Qed.

  Variables (delta : R) (mp : Q) (n : nat) (prec : Z * Z) (fuel : nat).
  Hypothesis delta_pos : 0 < delta.
  Hypothesis n_big : (2 <= n)%nat.
  Hypothesis fuel_big : (100 * n + 3 <= fuel)%nat.
  Hypothesis eta_small : eta < PI.

  Lemma winding_side r : wide r -> well_sampled n eta L zeros r ->
    (Th true (y1 r) (x2 r) - Th true (y1 r) (x1 r)) + (Th false (x2 r) (y2 r) - Th false (x2 r) (y1 r))
    - (Th true (y2 r) (x2 r) - Th true (y2 r) (x1 r)) - (Th false (x1 r) (y2 r) - Th false (x1 r) (y1 r))
    = 2 * PI * INR (count zeros r).
  Proof.
    intros HW (d & Hd & HB & _). pose proof (border_apart d r zeros HW Hd HB) as A.
    apply (winding zeros theta r d); try apply HW; try exact Hd; apply A; cbn; tauto.
  Qed.

  Lemma fresh_rectangle r st : inside D r -> wide r -> well_sampled n eta L zeros r ->
    level_free st true (y1 r) -> level_free st true (y2 r) -> level_free st false (x1 r) -> level_free st false (x2 r) ->
    exists st1 st2 st3 st4 p1 p2 p3 p4,
      sum_line f delta mp n prec fuel 0 (x1 r, y1 r) (x2 r, y1 r) st = (st1, SumOk [] p1) /\
      sum_line f delta mp n prec fuel 0 (x2 r, y1 r) (x2 r, y2 r) st1 = (st2, SumOk [] p2) /\
      sum_line f delta mp n prec fuel 0 (x2 r, y2 r) (x1 r, y2 r) st2 = (st3, SumOk [] p3) /\
      sum_line f delta mp n prec fuel 0 (x1 r, y2 r) (x1 r, y1 r) st3 = (st4, SumOk [] p4) /\
      p1 + p2 + p3 + p4 = 2 * PI * INR (count zeros r).
  Proof.
    intros HI HW HS F1 F2 F3 F4.
    pose proof (sampled_fine n r n_big HI HW HS) as FI. destruct HW as [Wx Wy].
    assert (Ny : ~ (y2 r == y1 r)%Q) by Lqa.lra. assert (Nx : ~ (x1 r == x2 r)%Q) by Lqa.lra.
    pose proof (fun h l a b Hin st => fine_fresh f zeros D theta f_proper eta eta_small delta mp n prec fuel
      delta_pos n_big fuel_big h l a b st (FI h l a b Hin)) as G.
    destruct (G true (y1 r) (x1 r) (x2 r) ltac:(cbn; tauto) st F1) as [st1 E1].
    assert (G2 : level_free st1 false (x2 r)).
    { apply (line_frame f delta mp n prec delta_pos n_big true (y1 r) fuel (x1 r) (x2 r) st st1 _ false (x2 r) Wx F1 E1); [first [left; discriminate|right; assumption]|try assumption]. }
    destruct (G false (x2 r) (y1 r) (y2 r) ltac:(cbn; tauto) st1 G2) as [st2 E2].
    assert (G3 : level_free st2 true (y2 r)).
    { apply (line_frame f delta mp n prec delta_pos n_big false (x2 r) fuel (y1 r) (y2 r) st1 st2 _ true (y2 r) Wy G2 E2); [first [left; discriminate|right; assumption]|try assumption].
      apply (line_frame f delta mp n prec delta_pos n_big true (y1 r) fuel (x1 r) (x2 r) st st1 _ true (y2 r) Wx F1 E1); [first [left; discriminate|right; assumption]|try assumption]. }
    destruct (G true (y2 r) (x1 r) (x2 r) ltac:(cbn; tauto) st2 G3) as [st3 E3].
    assert (G4 : level_free st3 false (x1 r)).
    { apply (line_frame f delta mp n prec delta_pos n_big true (y2 r) fuel (x1 r) (x2 r) st2 st3 _ false (x1 r) Wx G3 E3); [first [left; discriminate|right; assumption]|try assumption].
      apply (line_frame f delta mp n prec delta_pos n_big false (x2 r) fuel (y1 r) (y2 r) st1 st2 _ false (x1 r) Wy G2 E2); [first [left; discriminate|right; assumption]|try assumption].
      apply (line_frame f delta mp n prec delta_pos n_big true (y1 r) fuel (x1 r) (x2 r) st st1 _ false (x1 r) Wx F1 E1); [first [left; discriminate|right; assumption]|try assumption]. }
    destruct (G false (x1 r) (y1 r) (y2 r) ltac:(cbn; tauto) st3 G4) as [st4 E4].
    exists st1, st2, st3, st4. do 4 eexists.
    split; [exact E1|]. split; [exact E2|].
    split; [rewrite sum_line_swap by Lqa.lra; cbn [mkpoint] in E3; rewrite E3; reflexivity|].
    split; [rewrite sum_line_swap_vertical by Lqa.lra; cbn [mkpoint] in E4; rewrite E4; reflexivity|].
    rewrite <- (winding_side r (conj Wx Wy) HS). ring.
  Qed.
End Target.
