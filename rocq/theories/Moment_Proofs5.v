(** * Curvature of the integrand of a product of linear factors *)
From Coq Require Import Reals Qreals.
From Verif Require Import PyBase Refine_Model Zeros_Spec Sum_Model Sum_Spec Quad_Model Quad_Spec
  Arg_Spec Moment_Spec Arg_Proofs Arg_Proofs2 Romb_Proofs Moment_Proofs Moment_Proofs2 Moment_Proofs3 Moment_Proofs4.
From Coq Require Import Lqa Lra.
Open Scope R_scope.

(** ** Curves in the plane *)
Definition dlim (f : R -> cR) (t : R) (d : cR) : Prop :=
  derivable_pt_lim (fun s => fst (f s)) t (fst d) /\ derivable_pt_lim (fun s => snd (f s)) t (snd d).
Definition norm1 (z : cR) : R := Rabs (fst z) + Rabs (snd z).

Lemma dlim_plus f g t d e : dlim f t d -> dlim g t e -> dlim (fun s => plus_cR (f s) (g s)) t (plus_cR d e).
Proof. intros [A B] [A' B']. split; cbn [plus_cR fst snd]; apply lim_plus; assumption. Qed.
Lemma dlim_times f g t d e : dlim f t d -> dlim g t e -> dlim (fun s => times (f s) (g s)) t (plus_cR (times d (g t)) (times (f t) e)).
Proof.
  intros [A B] [A' B']. split; unfold times, plus_cR; cbn [fst snd].
  - eapply lim_eq; [apply lim_minus; apply lim_mult; eassumption|]. cbn beta. ring.
  - eapply lim_eq; [apply lim_plus; apply lim_mult; eassumption|]. cbn beta. ring.
Qed.
Lemma dlim_const c t : dlim (fun _ => c) t (0, 0).
Proof. split; apply lim_const. Qed.
Lemma dlim_eq f t d d' : dlim f t d -> d = d' -> dlim f t d'. Proof. intros H <-. exact H. Qed.
Lemma dlim_put h l t : dlim (fun s => put h s l) t (dir h).
Proof. destruct h; split; cbn [put dir fst snd]; (apply lim_id || apply lim_const). Qed.

Lemma lim_ext_near (F G : R -> R) t l eps : 0 < eps -> (forall s, Rabs (s - t) < eps -> F s = G s) ->
  derivable_pt_lim F t l -> derivable_pt_lim G t l.
Proof.
  intros He E D e Hep. destruct (D e Hep) as [d Hd].
  assert (P : 0 < Rmin d eps) by (apply Rmin_pos; [apply cond_pos|exact He]).
  exists (mkposreal _ P). cbn. intros x Hx Hx'. rewrite <- !E.
  - apply Hd; [exact Hx|]. eapply Rlt_le_trans; [exact Hx'|apply Rmin_l].
  - rewrite Rminus_eq_0, Rabs_R0. exact He.
  - replace (t + x - t) with x by ring. eapply Rlt_le_trans; [exact Hx'|apply Rmin_r].
Qed.
Lemma dlim_near f g t d eps : 0 < eps -> (forall s, Rabs (s - t) < eps -> f s = g s) -> dlim f t d -> dlim g t d.
Proof.
  intros He E [A B]. split; (eapply lim_ext_near; [exact He| |eassumption]); intros s Hs; cbn beta; rewrite (E s Hs); reflexivity.
Qed.

Lemma dlim_pole h l t w : minus_cR (put h t l) w <> (0, 0) ->
  dlim (fun s => quotient (1, 0) (minus_cR (put h s l) w)) t
    (times (times (-1, 0) (dir h)) (times (quotient (1, 0) (minus_cR (put h t l) w)) (quotient (1, 0) (minus_cR (put h t l) w)))).
Proof.
  intro N. apply norm_pos in N. unfold dlim, quotient, times, minus_cR, dir in *.
  destruct h; cbn [put fst snd] in *.
  - set (v := l - snd w) in *. set (u := t - fst w) in *.
    assert (DN : derivable_pt_lim (fun s => (s - fst w) * (s - fst w) + v * v) t (2 * u)).
    { eapply lim_eq; [apply lim_plus; [apply lim_mult; apply lim_minus_const|apply lim_const]|]. cbn beta. fold u. ring. }
    split.
    + eapply lim_eq; [apply (derivable_pt_lim_div (fun s => 1 * (s - fst w) + 0 * v) (fun s => (s - fst w) * (s - fst w) + v * v));
        [apply lim_plus; [apply lim_scale, lim_minus_const|apply lim_const]|exact DN|fold u; lra]|].
      cbn beta. fold u. unfold Rsqr. field. lra.
    + eapply lim_eq; [apply (derivable_pt_lim_div (fun s => 0 * (s - fst w) - 1 * v) (fun s => (s - fst w) * (s - fst w) + v * v));
        [apply lim_minus; [apply lim_scale, lim_minus_const|apply lim_const]|exact DN|fold u; lra]|].
      cbn beta. fold u. unfold Rsqr. field. lra.
  - set (v := l - fst w) in *. set (u := t - snd w) in *.
    assert (DN : derivable_pt_lim (fun s => v * v + (s - snd w) * (s - snd w)) t (2 * u)).
    { eapply lim_eq; [apply lim_plus; [apply lim_const|apply lim_mult; apply lim_minus_const]|]. cbn beta. fold u. ring. }
    split.
    + eapply lim_eq; [apply (derivable_pt_lim_div (fun s => 1 * v + 0 * (s - snd w)) (fun s => v * v + (s - snd w) * (s - snd w)));
        [apply lim_plus; [apply lim_const|apply lim_scale, lim_minus_const]|exact DN|fold u; lra]|].
      cbn beta. fold u. unfold Rsqr. field. lra.
    + eapply lim_eq; [apply (derivable_pt_lim_div (fun s => 0 * v - 1 * (s - snd w)) (fun s => v * v + (s - snd w) * (s - snd w)));
        [apply lim_minus; [apply lim_const|apply lim_scale, lim_minus_const]|exact DN|fold u; lra]|].
      cbn beta. fold u. unfold Rsqr. field. lra.
Qed.

(** ** Norms *)
Lemma norm1_pos z : 0 <= norm1 z.
Proof. unfold norm1. pose proof (Rabs_pos (fst z)). pose proof (Rabs_pos (snd z)). lra. Qed.
Lemma norm1_plus a b : norm1 (plus_cR a b) <= norm1 a + norm1 b.
Proof. unfold norm1, plus_cR. cbn [fst snd]. pose proof (Rabs_triang (fst a) (fst b)). pose proof (Rabs_triang (snd a) (snd b)). lra. Qed.
Lemma norm1_times a b : norm1 (times a b) <= norm1 a * norm1 b.
Proof.
  unfold norm1, times. cbn [fst snd].
  pose proof (Rabs_triang (fst a * fst b) (- (snd a * snd b))) as T1. pose proof (Rabs_triang (fst a * snd b) (snd a * fst b)) as T2.
  rewrite Rabs_Ropp in T1. rewrite !Rabs_mult in T1, T2. unfold Rminus. lra.
Qed.
Lemma norm1_dir h : norm1 (dir h) = 1.
Proof. unfold norm1. destruct h; cbn [dir fst snd]; rewrite Rabs_R0, Rabs_R1; ring. Qed.
Lemma norm1_power z B k : norm1 z <= B -> norm1 (power z k) <= B ^ k.
Proof.
  intro H. induction k as [|k IH].
  - cbn. unfold norm1. cbn [fst snd]. rewrite Rabs_R0, Rabs_R1. lra.
  - rewrite power_S. eapply Rle_trans; [apply norm1_times|]. cbn [pow].
    apply Rmult_le_compat; (apply norm1_pos || assumption).
Qed.
Lemma part_norm1 (part : cR -> R) z : part = fst \/ part = snd -> Rabs (part z) <= norm1 z.
Proof.
  unfold norm1. pose proof (Rabs_pos (fst z)). pose proof (Rabs_pos (snd z)).
  intros [-> | ->]; lra.
Qed.

Lemma cube_bound u v d : 0 < d -> d * d <= u * u + v * v ->
  let c := quotient (1, 0) (u, v) in norm1 (times c (times c c)) <= 3 / 2 / (d * d * d).
Proof.
  intros Hd Hn c. set (n := u * u + v * v) in *. assert (0 < n) by nra.
  set (X := times c (times c c)).
  assert (E : fst X * fst X + snd X * snd X = / (n * n * n)).
  { unfold X, c, times, quotient. cbn [fst snd]. fold n. unfold n. field. fold n. lra. }
  assert (LE : / (n * n * n) <= / (d * d * d * (d * d * d))).
  { apply Rinv_le_contravar; [repeat apply Rmult_lt_0_compat; assumption|].
    replace (d * d * d * (d * d * d)) with ((d * d) * (d * d) * (d * d)) by ring.
    assert (0 < d * d) by nra. apply Rmult_le_compat; [apply Rmult_le_pos; lra|lra| |exact Hn]. apply Rmult_le_compat; (exact Hn || lra). }
  set (m := / (d * d * d)). assert (M0 : 0 < m) by (apply Rinv_0_lt_compat; repeat apply Rmult_lt_0_compat; assumption).
  assert (LE' : fst X * fst X + snd X * snd X <= m * m).
  { rewrite E. unfold m. rewrite <- Rinv_mult. exact LE. }
  replace (3 / 2 / (d * d * d)) with (3 / 2 * m) by (unfold m; field; repeat split; lra).
  unfold norm1. destruct (Rle_dec (Rabs (fst X) + Rabs (snd X)) (3 / 2 * m)) as [L|L]; [exact L|exfalso].
  assert (Q1 : Rabs (fst X) * Rabs (fst X) = fst X * fst X) by (rewrite <- Rabs_mult; apply Rabs_pos_eq; nra).
  assert (Q2 : Rabs (snd X) * Rabs (snd X) = snd X * snd X) by (rewrite <- Rabs_mult; apply Rabs_pos_eq; nra).
  pose proof (Rabs_pos (fst X)). pose proof (Rabs_pos (snd X)). clearbody X m.
  set (x := Rabs (fst X)) in *. set (y := Rabs (snd X)) in *. clearbody x y.
  assert (K1 : (x + y) * (x + y) <= 2 * (m * m)) by (pose proof (Rle_0_sqr (x - y)) as S0; unfold Rsqr in S0; lra).
  apply Rnot_le_lt in L.
  assert (K2 : 3 / 2 * m * (3 / 2 * m) < (x + y) * (x + y)) by (apply Rmult_le_0_lt_compat; lra).
  assert (0 < m * m) by (apply Rmult_lt_0_compat; exact M0). lra.
Qed.

(** ** Second derivatives *)
Definition bent (g : R -> cR) (a b N : R) : Prop :=
  exists g1 g2, forall t, a <= t <= b -> dlim g t (g1 t) /\ dlim g1 t (g2 t) /\ norm1 (g2 t) <= N.

Lemma bent_plus f g a b N N' : bent f a b N -> bent g a b N' -> bent (fun t => plus_cR (f t) (g t)) a b (N + N').
Proof.
  intros (f1 & f2 & A) (g1 & g2 & B). exists (fun t => plus_cR (f1 t) (g1 t)), (fun t => plus_cR (f2 t) (g2 t)). intros t Ht.
  destruct (A t Ht) as (A1 & A2 & A3), (B t Ht) as (B1 & B2 & B3).
  split; [apply dlim_plus; assumption|]. split; [apply dlim_plus; assumption|].
  eapply Rle_trans; [apply norm1_plus|]. lra.
Qed.
Lemma bent_times c f a b N B : norm1 c <= B -> bent f a b N -> bent (fun t => times c (f t)) a b (B * N).
Proof.
  intros HB (f1 & f2 & A). exists (fun t => times c (f1 t)), (fun t => times c (f2 t)). intros t Ht.
  destruct (A t Ht) as (A1 & A2 & A3).
  assert (K : forall g d, dlim g t d -> dlim (fun s => times c (g s)) t (times c d)).
  { intros g d H. eapply dlim_eq; [apply dlim_times; [apply dlim_const|exact H]|].
    cbn beta. unfold times, plus_cR. cbn [fst snd]. apply pair_eq; ring. }
  split; [apply K, A1|]. split; [apply K, A2|].
  eapply Rle_trans; [apply norm1_times|]. apply Rmult_le_compat; (apply norm1_pos || assumption).
Qed.
Lemma bent_0 a b : bent (fun _ => (0, 0)) a b 0.
Proof.
  exists (fun _ => (0, 0)), (fun _ => (0, 0)). intros t _. split; [apply dlim_const|]. split; [apply dlim_const|].
  unfold norm1. cbn [fst snd]. rewrite Rabs_R0. lra.
Qed.
