(** * Moments: the lemmas behind C73 *)
From Coq Require Import Reals Qreals.
From Verif Require Import PyBase Refine_Model Zeros_Spec Sum_Model Sum_Spec Quad_Model Quad_Spec
  Arg_Spec Moment_Spec Arg_Proofs Arg_Proofs2 Arg_Proofs4 Arg_Examples Romb_Proofs Moment_Proofs Moment_Proofs2 Moment_Proofs3 Moment_Proofs4 Moment_Proofs5 Moment_Proofs6 Moment_Proofs7.
From Coq Require Import Lqa Lra.
Open Scope R_scope.

Lemma C73_moments_lemma F DF zeros k e r prec fuel :
  (x1 r < x2 r)%Q -> (y1 r < y2 r)%Q -> integrable F DF zeros k e r -> e < 1 / 2000 -> (2 <= fuel)%nat ->
  exists v1 v2 v3 v4,
    quad_line romberg (called F) (Some (called DF)) prec fuel k (x1 r, y1 r) (x2 r, y1 r) = QuadOk [] v1 /\
    quad_line romberg (called F) (Some (called DF)) prec fuel k (x2 r, y1 r) (x2 r, y2 r) = QuadOk [] v2 /\
    quad_line romberg (called F) (Some (called DF)) prec fuel k (x2 r, y2 r) (x1 r, y2 r) = QuadOk [] v3 /\
    quad_line romberg (called F) (Some (called DF)) prec fuel k (x1 r, y2 r) (x1 r, y1 r) = QuadOk [] v4 /\
    Rabs (fst v1 + fst v2 + fst v3 + fst v4 - 2 * PI * fst (power_sum zeros k r)) <= 4 * e /\
    Rabs (snd v1 + snd v2 + snd v3 + snd v4 - 2 * PI * snd (power_sum zeros k r)) <= 4 * e.
Proof.
  intros Hx Hy (q & Q & M & D & LD & PO & CU & Dx & Dy & HM) He Hf.
  destruct (moments_lemma F DF zeros q Q M D k r Hx Hy LD PO CU Dx Dy (Rle_lt_trans _ _ _ HM He) prec fuel Hf)
    as (v1 & v2 & v3 & v4 & E1 & E2 & E3 & E4 & B1 & B2).
  exists v1, v2, v3, v4. split; [exact E1|]. split; [exact E2|]. split; [exact E3|]. split; [exact E4|].
  split; (eapply Rle_trans; [eassumption|lra]).
Qed.

Lemma polynomial_integrable lead zeros k r d B D :
  lead <> (0, 0) -> (x1 r < x2 r)%Q -> (y1 r < y2 r)%Q -> 0 < d -> 1 <= B ->
  (forall w, In w zeros -> border_distance d r w) ->
  (forall w, In w zeros -> Rabs (fst w) + Rabs (snd w) <= B) ->
  (forall p, on_border r p -> Rabs (fst p) + Rabs (snd p) <= B) ->
  Q2R (x2 r) - Q2R (x1 r) <= D -> Q2R (y2 r) - Q2R (y1 r) <= D ->
  integrable (fun p => times lead (product_of zeros p)) (fun p => times lead (derivative_of zeros p)) zeros k
    (INR (List.length zeros) * B ^ k * (3 / d ^ 3 + INR k ^ 3) * D ^ 3 / (3 * 4 ^ 10)) r.
Proof.
  intros HL Hx Hy Hd HB far Bw Bp Dx Dy.
  exists (fun _ => (0, 0)), (fun _ => (0, 0)), (poly_curvature zeros k d B), D.
  split; [apply (log_poly lead zeros r d); assumption|].
  split; [apply zero_primitive|].
  split; [apply (curvature_poly lead zeros k r d B); assumption|].
  split; [exact Dx|]. split; [exact Dy|].
  apply Req_le. unfold poly_curvature, Rdiv.
  replace (d ^ 3) with (d * d * d) by ring. ring.
Qed.

Lemma C73_count_lemma zeros r : power_sum zeros 0 r = (INR (count zeros r), 0).
Proof.
  unfold power_sum, count. induction (filter (zinb r) zeros) as [|w l IH].
  - reflexivity.
  - cbn [map csum fold_right]. change (fold_right plus_cR (0, 0)) with csum. rewrite IH.
    unfold power. cbn [Nat.iter nat_rect List.length]. unfold plus_cR. cbn [fst snd]. rewrite S_INR. apply pair_eq; ring.
Qed.

Lemma C73_derivative_lemma zeros r : primitive_on r (product_of zeros) (derivative_of zeros).
Proof. intros x y _. exact (derivative_right zeros (x, y)). Qed.

(** The example of C69: three zeros, two of them in the square. *)
Lemma square_integrable :
  integrable (fun p => times (2, 0) (product_of three_zeros p)) (fun p => times (2, 0) (derivative_of three_zeros p))
    three_zeros 1 (1 / 4000) square.
Proof.
  pose proof (polynomial_integrable (2, 0) three_zeros 1 square 1 8 2) as H.
  assert (I : integrable (fun p => times (2, 0) (product_of three_zeros p)) (fun p => times (2, 0) (derivative_of three_zeros p))
    three_zeros 1 (INR (List.length three_zeros) * 8 ^ 1 * (3 / 1 ^ 3 + INR 1 ^ 3) * 2 ^ 3 / (3 * 4 ^ 10)) square).
  { apply H.
    - intro E. injection E. lra.
    - reflexivity.
    - reflexivity.
    - lra.
    - lra.
    - exact square_distance.
    - intros w Hw. unfold three_zeros in Hw. cbn [In] in Hw.
      unfold Rabs. decompose [or] Hw; subst; cbn [fst snd]; repeat destruct Rcase_abs; lra || contradiction.
    - intros p Hp. apply square_border in Hp. unfold Rabs. repeat destruct Rcase_abs; lra.
    - unfold square, Q2R. cbn. lra.
    - unfold square, Q2R. cbn. lra. }
  destruct I as (q & Q & M & D & I1 & I2 & I3 & I4 & I5 & I6).
  exists q, Q, M, D. repeat (split; [assumption|]). eapply Rle_trans; [exact I6|].
  cbn [three_zeros List.length INR]. lra.
Qed.
Lemma quarter_small : 1 / 4000 < 1 / 2000.
Proof. lra. Qed.

Lemma C73_polynomial_lemma lead zeros k r d B D prec fuel :
  lead <> (0, 0) -> (x1 r < x2 r)%Q -> (y1 r < y2 r)%Q -> 0 < d -> 1 <= B ->
  (forall w, In w zeros -> border_distance d r w) ->
  (forall w, In w zeros -> Rabs (fst w) + Rabs (snd w) <= B) ->
  (forall p, on_border r p -> Rabs (fst p) + Rabs (snd p) <= B) ->
  Q2R (x2 r) - Q2R (x1 r) <= D -> Q2R (y2 r) - Q2R (y1 r) <= D ->
  let F := called (fun p => times lead (product_of zeros p)) in
  let DF := called (fun p => times lead (derivative_of zeros p)) in
  let e := INR (List.length zeros) * B ^ k * (3 / d ^ 3 + INR k ^ 3) * D ^ 3 / (3 * 4 ^ 10) in
  e < 1 / 2000 -> (2 <= fuel)%nat ->
  exists v1 v2 v3 v4,
    quad_line romberg F (Some DF) prec fuel k (x1 r, y1 r) (x2 r, y1 r) = QuadOk [] v1 /\
    quad_line romberg F (Some DF) prec fuel k (x2 r, y1 r) (x2 r, y2 r) = QuadOk [] v2 /\
    quad_line romberg F (Some DF) prec fuel k (x2 r, y2 r) (x1 r, y2 r) = QuadOk [] v3 /\
    quad_line romberg F (Some DF) prec fuel k (x1 r, y2 r) (x1 r, y1 r) = QuadOk [] v4 /\
    Rabs (fst v1 + fst v2 + fst v3 + fst v4 - 2 * PI * fst (power_sum zeros k r)) <= 4 * e /\
    Rabs (snd v1 + snd v2 + snd v3 + snd v4 - 2 * PI * snd (power_sum zeros k r)) <= 4 * e.
Proof.
  intros HL Hx Hy Hd HB far Bw Bp Dx Dy F DF e He Hf.
  apply (C73_moments_lemma _ _ zeros k e r prec fuel Hx Hy); try assumption.
  apply polynomial_integrable; assumption.
Qed.
