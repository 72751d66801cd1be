(** * Moments of polynomials *)
From Coq Require Import Reals Qreals.
From Verif Require Import PyBase Refine_Model Zeros_Spec Sum_Model Sum_Spec Quad_Model Quad_Spec
  Arg_Spec Moment_Spec Arg_Proofs Arg_Proofs2 Romb_Proofs Moment_Proofs Moment_Proofs2 Moment_Proofs3 Moment_Proofs4 Moment_Proofs5.
From Coq Require Import Lqa Lra.
Open Scope R_scope.

Lemma bent_pole h l w a b d : 0 < d ->
  (forall t, a <= t <= b -> let z := minus_cR (put h t l) w in d * d <= fst z * fst z + snd z * snd z) ->
  bent (fun t => quotient (1, 0) (minus_cR (put h t l) w)) a b (3 / (d * d * d)).
Proof.
  intros Hd HN. set (c := fun t => quotient (1, 0) (minus_cR (put h t l) w)).
  assert (NZ : forall t, a <= t <= b -> minus_cR (put h t l) w <> (0, 0)).
  { intros t Ht C. specialize (HN t Ht). cbv zeta in HN. rewrite C in HN. cbn [fst snd] in HN. nra. }
  exists (fun t => times (times (-1, 0) (dir h)) (times (c t) (c t))),
    (fun t => times (times (2, 0) (times (dir h) (dir h))) (times (c t) (times (c t) (c t)))).
  intros t Ht. pose proof (dlim_pole h l t w (NZ t Ht)) as D. fold (c t) in D.
  split; [exact D|]. split.
  - eapply dlim_eq; [apply dlim_times; [apply dlim_const|apply dlim_times; exact D]|]. cbn beta. fold (c t).
    destruct (c t) as [u v], (dir h) as [x y]. unfold times, plus_cR. cbn [fst snd]. apply pair_eq; ring.
  - specialize (HN t Ht). cbv zeta in HN. pose proof (cube_bound _ _ d Hd HN) as CB. cbv zeta in CB.
    replace (fst (minus_cR (put h t l) w), snd (minus_cR (put h t l) w)) with (minus_cR (put h t l) w) in CB by (symmetry; apply surjective_pairing).
    fold (c t) in CB. eapply Rle_trans; [apply norm1_times|].
    assert (N2 : norm1 (times (2, 0) (times (dir h) (dir h))) <= 2).
    { eapply Rle_trans; [apply norm1_times|]. replace 2 with (2 * (1 * 1)) at 2 by ring. apply Rmult_le_compat; try apply norm1_pos.
      - unfold norm1. cbn [fst snd]. rewrite Rabs_R0, Rabs_pos_eq by lra. lra.
      - eapply Rle_trans; [apply norm1_times|]. rewrite norm1_dir. lra. }
    replace (3 / (d * d * d)) with (2 * (3 / 2 / (d * d * d))) by (field; lra).
    apply Rmult_le_compat; (apply norm1_pos || assumption).
Qed.

Lemma rest_bent h l w k a b B : 1 <= B -> norm1 w <= B -> (forall t, a <= t <= b -> norm1 (put h t l) <= B) ->
  exists g1 g2 : R -> cR, forall t, a <= t <= b ->
    dlim (fun s => rest w k (put h s l)) t (g1 t) /\ dlim g1 t (g2 t) /\
    norm1 (rest w k (put h t l)) <= INR k * B ^ k /\ norm1 (g1 t) <= INR k ^ 2 * B ^ k /\ norm1 (g2 t) <= INR k ^ 3 * B ^ k.
Proof.
  intros HB Hw Hp. induction k as [|k (g1 & g2 & IH)].
  - exists (fun _ => (0, 0)), (fun _ => (0, 0)). intros t _. cbn [rest]. split; [apply dlim_const|]. split; [apply dlim_const|].
    unfold norm1. cbn [fst snd]. rewrite Rabs_R0. cbn [INR pow]. lra.
  - exists (fun t => plus_cR (times (dir h) (rest w k (put h t l))) (times (put h t l) (g1 t))),
      (fun t => plus_cR (times (times (2, 0) (dir h)) (g1 t)) (times (put h t l) (g2 t))).
    intros t Ht. destruct (IH t Ht) as (D1 & D2 & B0 & B1 & B2). specialize (Hp t Ht).
    assert (P : 1 <= B ^ k) by (apply pow_R1_Rle; exact HB).
    pose proof (pos_INR k) as K0. rewrite S_INR. cbn [rest pow] in *. rewrite !Rmult_1_r in *.
    set (x := INR k) in *. set (Bk := B ^ k) in *.
    pose proof (norm1_power w B k Hw) as PW. fold Bk in PW.
    assert (BB : Bk <= B * Bk) by nra.
    assert (XB : x * Bk <= x * (B * Bk)) by (apply Rmult_le_compat_l; assumption).
    assert (XXB : x * (x * Bk) <= x * (x * (B * Bk))) by (apply Rmult_le_compat_l; assumption).
    split; [|split; [|split; [|split]]].
    + eapply dlim_eq; [apply dlim_plus; [apply dlim_const|apply dlim_times; [apply dlim_put|exact D1]]|].
      unfold plus_cR at 1. cbn [fst snd]. rewrite !Rplus_0_l. symmetry. apply surjective_pairing.
    + eapply dlim_eq; [apply dlim_plus; [apply dlim_times; [apply dlim_const|exact D1]|apply dlim_times; [apply dlim_put|exact D2]]|].
      cbn beta. destruct (g1 t) as [u v], (dir h) as [p q], (rest w k (put h t l)) as [m n], (times (put h t l) (g2 t)) as [m' n'].
      unfold times, plus_cR. cbn [fst snd]. apply pair_eq; ring.
    + eapply Rle_trans; [apply norm1_plus|]. pose proof (norm1_times (put h t l) (rest w k (put h t l))) as N.
      assert (norm1 (put h t l) * norm1 (rest w k (put h t l)) <= B * (x * Bk)) by (apply Rmult_le_compat; (apply norm1_pos || assumption)). lra.
    + eapply Rle_trans; [apply norm1_plus|]. pose proof (norm1_times (put h t l) (g1 t)) as N.
      pose proof (norm1_times (dir h) (rest w k (put h t l))) as N'. rewrite norm1_dir in N'.
      assert (norm1 (put h t l) * norm1 (g1 t) <= B * (x * x * Bk)) by (apply Rmult_le_compat; (apply norm1_pos || assumption)).
      assert (0 <= x * (B * Bk)) by (apply Rmult_le_pos; [exact K0|lra]). lra.
    + eapply Rle_trans; [apply norm1_plus|]. pose proof (norm1_times (put h t l) (g2 t)) as N.
      pose proof (norm1_times (times (2, 0) (dir h)) (g1 t)) as N'. pose proof (norm1_times (2, 0) (dir h)) as N2. rewrite norm1_dir in N2.
      assert (E2 : norm1 (2, 0) = 2) by (unfold norm1; cbn [fst snd]; rewrite Rabs_R0, Rabs_pos_eq by lra; ring). rewrite E2 in N2.
      assert (norm1 (put h t l) * norm1 (g2 t) <= B * (x * (x * x) * Bk)) by (apply Rmult_le_compat; (apply norm1_pos || assumption)).
      assert (norm1 (times (2, 0) (dir h)) * norm1 (g1 t) <= 2 * (x * x * Bk)).
      { apply Rmult_le_compat; (apply norm1_pos || lra). }
      assert (0 <= x * (B * Bk)) by (apply Rmult_le_pos; [exact K0|lra]).
      assert (0 <= x * (x * (B * Bk))) by (apply Rmult_le_pos; [exact K0|assumption]). lra.
Qed.

(** ** The logarithmic derivative of a product *)
Lemma times_nonzero a b : a <> (0, 0) -> b <> (0, 0) -> times a b <> (0, 0).
Proof.
  intros A B C. apply norm_pos in A, B. pose proof (f_equal fst C) as C1. pose proof (f_equal snd C) as C2.
  destruct a as [a1 a2], b as [b1 b2]. unfold times in C1, C2. cbn [fst snd] in *.
  assert (E : (a1 * a1 + a2 * a2) * (b1 * b1 + b2 * b2) = 0).
  { replace ((a1 * a1 + a2 * a2) * (b1 * b1 + b2 * b2)) with ((a1 * b1 - a2 * b2) * (a1 * b1 - a2 * b2) + (a1 * b2 + a2 * b1) * (a1 * b2 + a2 * b1)) by ring.
    rewrite C1, C2. ring. }
  pose proof (Rmult_lt_0_compat _ _ A B). lra.
Qed.
Lemma product_nonzero zeros p : (forall w, In w zeros -> minus_cR p w <> (0, 0)) -> product_of zeros p <> (0, 0).
Proof.
  induction zeros as [|w l IH]; intro H; [intro C; injection C as C; lra|].
  cbn [product_of]. apply times_nonzero; [apply H; left; reflexivity|apply IH; intros; apply H; right; assumption].
Qed.

Lemma product_log zeros p : (forall w, In w zeros -> minus_cR p w <> (0, 0)) ->
  quotient (derivative_of zeros p) (product_of zeros p) = csum (map (fun w => quotient (1, 0) (minus_cR p w)) zeros).
Proof.
  induction zeros as [|w l IH]; intro H.
  - cbn. unfold quotient. cbn [fst snd]. apply pair_eq; field.
  - assert (A : minus_cR p w <> (0, 0)) by (apply H; left; reflexivity).
    assert (B : product_of l p <> (0, 0)) by (apply product_nonzero; intros; apply H; right; assumption).
    specialize (IH (fun w' Hw => H w' (or_intror Hw))). cbn [map csum fold_right derivative_of product_of].
    change (fold_right plus_cR (0, 0)) with csum. rewrite <- IH. clear IH H. apply norm_pos in A, B.
    destruct (minus_cR p w) as [a1 a2], (product_of l p) as [b1 b2], (derivative_of l p) as [d1 d2].
    unfold quotient, times, plus_cR. cbn [fst snd] in *.
    assert (N : (a1 * b1 - a2 * b2) * (a1 * b1 - a2 * b2) + (a1 * b2 + a2 * b1) * (a1 * b2 + a2 * b1) = (a1 * a1 + a2 * a2) * (b1 * b1 + b2 * b2)) by ring.
    rewrite N. apply pair_eq; field; lra.
Qed.

Lemma quotient_scale c a b : c <> (0, 0) -> b <> (0, 0) -> quotient (times c a) (times c b) = quotient a b.
Proof.
  intros C B. apply norm_pos in C, B. destruct a as [a1 a2], b as [b1 b2], c as [c1 c2]. unfold quotient, times. cbn [fst snd] in *.
  assert (N : (c1 * b1 - c2 * b2) * (c1 * b1 - c2 * b2) + (c1 * b2 + c2 * b1) * (c1 * b2 + c2 * b1) = (c1 * c1 + c2 * c2) * (b1 * b1 + b2 * b2)) by ring.
  rewrite N. apply pair_eq; field; lra.
Qed.

(** It is a derivative. *)
Lemma derivative_right zeros : forall p, prim p (product_of zeros) (derivative_of zeros).
Proof.
  induction zeros as [|w l IH]; intro p.
  - cbn [product_of derivative_of]. unfold prim. cbn [fst snd]. rewrite Ropp_0. auto using lim_const.
  - cbn [product_of derivative_of]. destruct (IH p) as (A1 & A2 & A3 & A4). destruct p as [x y].
    unfold prim, times, plus_cR, minus_cR in *. cbn [fst snd] in *.
    split; [|split; [|split]].
    + eapply lim_eq; [apply lim_minus; [apply lim_mult; [apply lim_minus_const|exact A1]|apply lim_scale; exact A2]|]. cbn beta. ring.
    + eapply lim_eq; [apply lim_plus; [apply lim_mult; [apply lim_minus_const|exact A2]|apply lim_scale; exact A1]|]. cbn beta. ring.
    + eapply lim_eq; [apply lim_minus; [apply lim_scale; exact A3|apply lim_mult; [apply lim_minus_const|exact A4]]|]. cbn beta. ring.
    + eapply lim_eq; [apply lim_plus; [apply lim_scale; exact A4|apply lim_mult; [apply lim_minus_const|exact A3]]|]. cbn beta. ring.
Qed.
