(** * Examples for the argument principle *)
From Coq Require Import Reals Qreals.
From Verif Require Import PyBase Refine_Model Zeros_Spec Sum_Model Sum_Spec Angle_Proofs
  Sum_Proofs4 Arg_Spec Arg_Proofs Arg_Proofs2 Arg_Proofs3 Arg_Proofs4.
From Coq Require Import Lqa Lra.
Open Scope R_scope.

Lemma argument_principle f zeros L delta mp n prec fuel eta r st :
  0 < delta -> (2 <= n)%nat -> (100 * n + 3 <= fuel)%nat -> (x1 r < x2 r)%Q -> (y1 r < y2 r)%Q ->
  factorised f zeros L r -> eta < PI -> well_sampled n eta L zeros r ->
  level_free st true (y1 r) -> level_free st true (y2 r) -> level_free st false (x1 r) -> level_free st false (x2 r) ->
  exists st1 st2 st3 st4 p1 p2 p3 p4,
    sum_line f delta mp n prec fuel 0 (x1 r, y1 r) (x2 r, y1 r) st = (st1, SumOk [] p1) /\
    sum_line f delta mp n prec fuel 0 (x2 r, y1 r) (x2 r, y2 r) st1 = (st2, SumOk [] p2) /\
    sum_line f delta mp n prec fuel 0 (x2 r, y2 r) (x1 r, y2 r) st2 = (st3, SumOk [] p3) /\
    sum_line f delta mp n prec fuel 0 (x1 r, y2 r) (x1 r, y1 r) st3 = (st4, SumOk [] p4) /\
    p1 + p2 + p3 + p4 = 2 * PI * INR (count zeros r).
Proof.
  intros Hd Hn Hf Wx Wy (F1 & F2 & rho & theta & F3 & F4) He HS L1 L2 L3 L4.
  apply (fresh_rectangle f zeros L r rho theta F1 F2 F3 F4 eta delta mp n prec fuel Hd Hn Hf He r st); auto.
  - unfold inside. repeat split; Lqa.lra.
  - split; assumption.
Qed.

Lemma cmulR_1 a : cmulR a (1, 0) = a.
Proof. destruct a. unfold cmulR. cbn. f_equal; ring. Qed.

Lemma product_proper zeros z z' : ceq z z' -> zero_product zeros z = zero_product zeros z'.
Proof.
  intros [E1 E2]. induction zeros as [|w l IH]; [reflexivity|]. cbn [zero_product]. rewrite IH.
  unfold minus_zero. rewrite (Qeq_eqR _ _ E1), (Qeq_eqR _ _ E2). reflexivity.
Qed.

(** Polynomials. *)
Lemma polynomial_factorised zeros r : factorised (zero_product zeros) zeros 0 r.
Proof.
  split; [apply product_proper|]. split; [lra|]. exists (fun _ => 1), (fun _ => 0). split.
  - intros z _. split; [lra|]. rewrite cos_0, sin_0, Rmult_1_r, Rmult_0_r, cmulR_1. reflexivity.
  - intros. rewrite Rminus_eq_0, Rabs_R0. lra.
Qed.

(** Polynomials times the exponential function. *)
Definition exponential (z : cplx) : cR := (exp (Q2R (re z)) * cos (Q2R (im z)), exp (Q2R (re z)) * sin (Q2R (im z))).
Lemma exponential_factorised zeros r : factorised (fun z => cmulR (zero_product zeros z) (exponential z)) zeros 1 r.
Proof.
  split.
  { intros z z' E. rewrite (product_proper zeros z z' E). destruct E as [E1 E2]. unfold exponential.
    rewrite (Qeq_eqR _ _ E1), (Qeq_eqR _ _ E2). reflexivity. }
  split; [lra|]. exists (fun z => exp (Q2R (re z))), (fun z => Q2R (im z)). split.
  - intros z _. split; [apply exp_pos|reflexivity].
  - intros z z' _ _. rewrite !Q2R_minus. pose proof (Rabs_pos (Q2R (re z') - Q2R (re z))). lra.
Qed.

(** A double zero in the middle of the square [-1,1]^2 and a simple one outside. *)
Definition three_zeros : list point := [(0, 0); (0, 0); (3, 3)].
Definition square : rect := mkRect (-1) 1 (-1) 1.

Lemma Q2R_int k : Q2R (inject_Z k) = IZR k.
Proof. unfold Q2R, inject_Z. cbn. lra. Qed.

Lemma dist_lower a b c e d : 0 <= d -> d * d <= (a - c) * (a - c) + (b - e) * (b - e) -> d <= dist_euc a b c e.
Proof.
  intros Hd H. unfold dist_euc. rewrite <- (sqrt_Rsqr d Hd). apply sqrt_le_1_alt. unfold Rsqr. exact H.
Qed.

Lemma square_border p : on_border square p -> -1 <= fst p <= 1 /\ -1 <= snd p <= 1 /\
  (fst p = -1 \/ fst p = 1 \/ snd p = -1 \/ snd p = 1).
Proof.
  unfold on_border, zin, zstrict, square. cbn [x1 x2 y1 y2].
  change (-1)%Q with (inject_Z (-1)). change 1%Q with (inject_Z 1). rewrite !Q2R_int. intros [[A B] C].
  split; [exact A|]. split; [exact B|].
  destruct (Req_dec (fst p) (-1)); [tauto|]. destruct (Req_dec (fst p) 1); [tauto|].
  destruct (Req_dec (snd p) (-1)); [tauto|]. destruct (Req_dec (snd p) 1); [tauto|].
  exfalso. apply C. lra.
Qed.

Lemma square_distance w : In w three_zeros -> border_distance 1 square w.
Proof.
  intros Hw p Hp. apply dist_lower; [lra|]. destruct (square_border p Hp) as (A & B & C).
  destruct p as [a b]. cbn [fst snd] in *.
  destruct Hw as [<-|[<-|[<-|[]]]]; cbn [fst snd]; destruct C as [C|[C|[C|C]]]; subst; nra.
Qed.

Lemma PI_3 : 3 < PI.
Proof. pose proof PI2_3_2. lra. Qed.

Lemma square_sampled : well_sampled 3 3 0 three_zeros square.
Proof.
  exists 1. split; [lra|]. split; [exact square_distance|]. unfold square. cbn [x1 x2 y1 y2].
  assert (E : Q2R (1 - -1) = 2) by (unfold Q2R; cbn; lra). rewrite E. cbn. lra.
Qed.

Lemma square_count : count three_zeros square = 2%nat.
Proof.
  assert (IN : zinb square (0, 0) = true).
  { unfold zinb, square. cbn [x1 x2 y1 y2 fst snd]. change (-1)%Q with (inject_Z (-1)). change 1%Q with (inject_Z 1).
    rewrite !Q2R_int. destruct (between_dec (IZR (-1)) 0 (IZR 1)) as [H|H]; [reflexivity|]. exfalso; apply H. lra. }
  assert (OUT : zinb square (3, 3) = false).
  { unfold zinb, square. cbn [x1 x2 y1 y2 fst snd]. change (-1)%Q with (inject_Z (-1)). change 1%Q with (inject_Z 1).
    rewrite !Q2R_int. destruct (between_dec (IZR (-1)) 3 (IZR 1)) as [H|H]; [lra|reflexivity]. }
  unfold count, three_zeros. cbn [filter]. rewrite IN, OUT. reflexivity.
Qed.
