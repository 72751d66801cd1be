(** * Moments of polynomials: the bound *)
From Coq Require Import Reals Qreals.
From Verif Require Import PyBase Refine_Model Zeros_Spec Sum_Model Sum_Spec Quad_Model Quad_Spec
  Arg_Spec Moment_Spec Arg_Proofs Arg_Proofs2 Arg_Proofs4 Romb_Proofs Moment_Proofs Moment_Proofs2 Moment_Proofs3 Moment_Proofs4 Moment_Proofs5 Moment_Proofs6.
From Coq Require Import Lqa Lra.
Open Scope R_scope.

Lemma sum_bent h l k a b d B zeros : 0 < d -> 1 <= B ->
  (forall w, In w zeros -> norm1 w <= B) -> (forall t, a <= t <= b -> norm1 (put h t l) <= B) ->
  (forall w t, In w zeros -> a <= t <= b -> let z := minus_cR (put h t l) w in d * d <= fst z * fst z + snd z * snd z) ->
  bent (fun t => plus_cR (csum (map (fun w => times (power w k) (quotient (1, 0) (minus_cR (put h t l) w))) zeros))
                         (csum (map (fun w => rest w k (put h t l)) zeros))) a b
    (INR (List.length zeros) * (B ^ k * (3 / (d * d * d) + INR k ^ 3))).
Proof.
  intros Hd HB HW HP HN. induction zeros as [|w ws IH].
  - cbn [map csum fold_right List.length INR]. rewrite Rmult_0_l, plus_0. apply bent_0.
  - specialize (IH (fun w' Hw => HW w' (or_intror Hw)) (fun w' t Hw => HN w' t (or_intror Hw))).
    pose proof (bent_times (power w k) _ a b _ (B ^ k) (norm1_power w B k (HW w (or_introl eq_refl)))
      (bent_pole h l w a b d Hd (fun t => HN w t (or_introl eq_refl)))) as B1.
    destruct (rest_bent h l w k a b B HB (HW w (or_introl eq_refl)) HP) as (g1 & g2 & RB).
    assert (B2 : bent (fun t => rest w k (put h t l)) a b (INR k ^ 3 * B ^ k)).
    { exists g1, g2. intros t Ht. destruct (RB t Ht) as (R1 & R2 & _ & _ & R3). auto. }
    pose proof (bent_plus _ _ a b _ _ (bent_plus _ _ a b _ _ B1 B2) IH) as K.
    cbn [List.length]. rewrite S_INR.
    destruct K as (f1 & f2 & K). exists f1, f2. intros t Ht. destruct (K t Ht) as (K1 & K2 & K3).
    split; [|split; [exact K2|]].
    + apply (dlim_near _ _ t _ 1 ltac:(lra)) with (2 := K1). intros s _. cbn [map csum fold_right].
      change (fold_right plus_cR (0, 0)) with csum.
      set (A1 := times (power w k) _). set (A2 := rest w k _). set (A3 := csum _). set (A4 := csum _).
      destruct A1, A2, A3, A4. unfold plus_cR. cbn [fst snd]. apply pair_eq; ring.
    + eapply Rle_trans; [exact K3|]. apply Req_le. ring.
Qed.

Section Poly.
  Variables (lead : cR) (zeros : list point) (k : nat) (r : rect) (d B : R).
  Hypothesis Hlead : lead <> (0, 0).
  Hypothesis Hx : (x1 r < x2 r)%Q.
  Hypothesis Hy : (y1 r < y2 r)%Q.
  Hypothesis Hd : 0 < d.
  Hypothesis far : forall w, In w zeros -> border_distance d r w.
  Hypothesis HB : 1 <= B.
  Hypothesis Bw : forall w, In w zeros -> Rabs (fst w) + Rabs (snd w) <= B.
  Hypothesis Bp : forall p, on_border r p -> Rabs (fst p) + Rabs (snd p) <= B.
  Let F := fun p => times lead (product_of zeros p).
  Let DF := fun p => times lead (derivative_of zeros p).

  Lemma far_side h l a b t w : In (h, l, a, b) (side4 r) -> Q2R a <= t <= Q2R b -> In w zeros ->
    let z := minus_cR (put h t (Q2R l)) w in d * d <= fst z * fst z + snd z * snd z.
  Proof.
    intros HI Ht Hw z. pose proof (border_apart d r zeros (conj Hx Hy) Hd far h l a b HI w t Hw Ht) as A.
    unfold z. destruct h; cbn [put minus_cR along across fst snd] in *; lra.
  Qed.

  Lemma near_side h l a b t s w : In (h, l, a, b) (side4 r) -> Q2R a <= t <= Q2R b -> In w zeros -> Rabs (s - t) < d ->
    minus_cR (put h s (Q2R l)) w <> (0, 0).
  Proof.
    intros HI Ht Hw Hs C. pose proof (far_side h l a b t w HI Ht Hw) as A. cbv zeta in A.
    pose proof (f_equal fst C) as C1. pose proof (f_equal snd C) as C2.
    assert (X : d * d <= (t - s) * (t - s)).
    { destruct h; cbn [put minus_cR fst snd] in *.
      - replace (t - fst w) with (t - s) in A by lra. rewrite C2 in A. lra.
      - replace (t - snd w) with (t - s) in A by lra. rewrite C1 in A. lra. }
    assert (Y : (t - s) * (t - s) = Rabs (s - t) * Rabs (s - t)) by (rewrite <- Rabs_mult, Rabs_pos_eq; nra).
    pose proof (Rabs_pos (s - t)). nra.
  Qed.

  Lemma log_poly : log_derivative F DF zeros (fun _ => (0, 0)) r.
  Proof.
    assert (OFF : forall p, on_border r p -> forall w, In w zeros -> minus_cR p w <> (0, 0)).
    { intros p Hp w Hw C. specialize (far w Hw p Hp). pose proof (f_equal fst C) as C1. pose proof (f_equal snd C) as C2.
      unfold minus_cR in C1, C2. cbn [fst snd] in C1, C2. unfold dist_euc in far. rewrite C1, C2 in far.
      replace (Rsqr 0 + Rsqr 0) with 0 in far by (unfold Rsqr; ring). rewrite sqrt_0 in far. lra. }
    split.
    - intros w Hw OB. apply (OFF w OB w Hw). unfold minus_cR. apply pair_eq; ring.
    - intros p OB. pose proof (product_nonzero zeros p (OFF p OB)) as PN. split; [apply times_nonzero; assumption|].
      unfold F, DF. rewrite quotient_scale by assumption. rewrite product_log by (apply OFF, OB). rewrite plus_0. reflexivity.
  Qed.

  Lemma moment_poly p : (forall w, In w zeros -> minus_cR p w <> (0, 0)) ->
    moment_at F DF k p = plus_cR (csum (map (fun w => times (power w k) (quotient (1, 0) (minus_cR p w))) zeros))
                                 (csum (map (fun w => rest w k p) zeros)).
  Proof.
    intro H. rewrite (moment_split F DF zeros (fun _ => (0, 0)) k p H).
    - rewrite times_0, plus_0. reflexivity.
    - unfold F, DF. rewrite quotient_scale by (assumption || apply product_nonzero, H). rewrite product_log by exact H. rewrite plus_0. reflexivity.
  Qed.

  Definition poly_curvature : R := INR (List.length zeros) * (B ^ k * (3 / (d * d * d) + INR k ^ 3)).

  Lemma curvature_side h l a b (part : cR -> R) : In (h, l, a, b) (side4 r) -> part = fst \/ part = snd ->
    bends_at_most poly_curvature (fun t => part (moment_at F DF k (put h t (Q2R l)))) (Q2R a) (Q2R b).
  Proof.
    intros HI HP.
    destruct (sum_bent h (Q2R l) k (Q2R a) (Q2R b) d B zeros Hd HB Bw
      (fun t Ht => Bp _ (border_side r h l a b t Hx Hy HI Ht)) (fun w t Hw Ht => far_side h l a b t w HI Ht Hw)) as (g1 & g2 & K).
    exists (fun t => part (g1 t)), (fun t => part (g2 t)). intros t Ht. destruct (K t Ht) as (K1 & K2 & K3).
    assert (K1' : dlim (fun s => moment_at F DF k (put h s (Q2R l))) t (g1 t)).
    { apply (dlim_near _ _ t _ d Hd) with (2 := K1). intros s Hs. symmetry. apply moment_poly. intros w Hw.
      exact (near_side h l a b t s w HI Ht Hw Hs). }
    split; [destruct HP as [-> | ->]; apply K1'|]. split; [destruct HP as [-> | ->]; apply K2|].
    eapply Rle_trans; [apply part_norm1, HP|exact K3].
  Qed.

  Lemma curvature_poly : curvature poly_curvature (moment_at F DF k) r.
  Proof.
    intros part HP.
    split; [exact (curvature_side true (y1 r) (x1 r) (x2 r) part ltac:(left; reflexivity) HP)|].
    split; [exact (curvature_side true (y2 r) (x1 r) (x2 r) part ltac:(right; right; left; reflexivity) HP)|].
    split; [exact (curvature_side false (x1 r) (y1 r) (y2 r) part ltac:(right; right; right; left; reflexivity) HP)|].
    exact (curvature_side false (x2 r) (y1 r) (y2 r) part ltac:(right; left; reflexivity) HP).
  Qed.

  Lemma zero_primitive : primitive_on r (fun _ => (0, 0)) (fun p => times (power p k) (0, 0)).
  Proof. intros x y _. rewrite times_0. cbn [fst snd]. rewrite Ropp_0. auto using lim_const. Qed.
End Poly.
