(** * Angles of points seen from a zero *)
From Coq Require Import Reals Qreals.
From Verif Require Import PyBase Refine_Model Zeros_Spec Sum_Model Sum_Spec Angle_Proofs Arg_Spec.
From Coq Require Import Lra Lqa.
From Coq Require Import Lra.
Open Scope R_scope.

(** ** One zero, one axis-parallel line *)
Definition at0 (u v : R) : R := if Req_EM_T v 0 then 0 else atan (u / v).
Definition put (horiz : bool) (u v : R) : cR := if horiz then (u, v) else (v, u).
Definition ang (horiz : bool) (v u : R) : R :=
  if horiz then
    (if Rlt_dec 0 v then PI / 2 - atan (u / v)
     else if Rlt_dec v 0 then - (PI / 2) - atan (u / v)
     else if Rlt_dec 0 u then 0 else PI)
  else
    (if Rlt_dec 0 v then atan (u / v)
     else if Rlt_dec v 0 then PI + atan (u / v)
     else if Rlt_dec 0 u then PI / 2 else - (PI / 2)).

Lemma norm2_pos u v : u <> 0 \/ v <> 0 -> 0 < u * u + v * v.
Proof. intros [H|H]; pose proof (Rsqr_pos_lt _ H) as K; unfold Rsqr in K; nra. Qed.

Lemma atan_radius u v : v <> 0 -> exists r, 0 < r /\ r * cos (atan (u / v)) = Rabs v /\
  r * sin (atan (u / v)) = Rabs v * (u / v).
Proof.
  intro Hv. exists (Rabs v * sqrt (1 + (u / v) * (u / v))).
  assert (K : 0 < sqrt (1 + (u / v) * (u / v))) by (apply sqrt_lt_R0; nra).
  assert (A : 0 < Rabs v) by (apply Rabs_pos_lt, Hv).
  split; [apply Rmult_lt_0_compat; assumption|].
  rewrite cos_atan, sin_atan. unfold Rsqr. split; field; lra.
Qed.

Lemma ang_polar horiz v u : u <> 0 \/ v <> 0 -> exists r, polar (put horiz u v) r (ang horiz v u).
Proof.
  intro H. unfold put, ang, polar.
  destruct (Rlt_dec 0 v) as [V|V]; [|destruct (Rlt_dec v 0) as [W|W]].
  - destruct (atan_radius u v ltac:(lra)) as (r & R0 & R1 & R2). exists r.
    rewrite Rabs_pos_eq in R1, R2 by lra.
    replace (v * (u / v)) with u in R2 by (field; lra).
    destruct horiz; cbn [fst snd].
    + rewrite cos_shift, sin_shift. lra.
    + lra.
  - destruct (atan_radius u v ltac:(lra)) as (r & R0 & R1 & R2). exists r.
    rewrite Rabs_left in R1, R2 by lra.
    replace (- v * (u / v)) with (- u) in R2 by (field; lra).
    destruct horiz; cbn [fst snd].
    + replace (- (PI / 2) - atan (u / v)) with (- (PI / 2 + atan (u / v))) by ring.
      rewrite cos_neg, sin_neg. rewrite <- cos_sin. rewrite (Rplus_comm (PI / 2)), cos_plus, cos_PI2, sin_PI2.
      lra.
    + rewrite (Rplus_comm PI), neg_cos, neg_sin. lra.
  - assert (v = 0) by lra. subst v. assert (U : u <> 0) by (destruct H; [assumption|congruence]).
    destruct (Rlt_dec 0 u) as [P|P].
    + exists u. destruct horiz; cbn [fst snd]; rewrite ?cos_0, ?sin_0, ?cos_PI2, ?sin_PI2; lra.
    + exists (- u). destruct horiz; cbn [fst snd]; rewrite ?cos_neg, ?sin_neg, ?cos_PI, ?sin_PI, ?cos_PI2, ?sin_PI2; lra.
Qed.

Definition sg (horiz : bool) : R := if horiz then -1 else 1.

Lemma ang_diff horiz v u u' : v <> 0 \/ 0 < u * u' ->
  ang horiz v u' - ang horiz v u = sg horiz * (at0 u' v - at0 u v).
Proof.
  intro H. unfold ang, at0, sg.
  destruct (Req_EM_T v 0) as [V|V].
  - subst v. destruct H as [H|H]; [congruence|].
    destruct (Rlt_dec 0 0) as [C|_]; [lra|].
    destruct horiz; destruct (Rlt_dec 0 u), (Rlt_dec 0 u'); try lra; exfalso; nra.
  - destruct horiz; destruct (Rlt_dec 0 v); try lra; destruct (Rlt_dec v 0); try lra; exfalso; lra.
Qed.

Lemma atan_lip v d u u' : v <> 0 -> 0 < d -> u < u' ->
  (forall s, u <= s <= u' -> d * d <= s * s + v * v) ->
  Rabs (atan (u' / v) - atan (u / v)) <= (u' - u) / d.
Proof.
  intros Hv Hd Hu Hs.
  destruct (MVT_cor2 (fun s => atan (s / v)) (fun s => / (1 + Rsqr (s / v)) * (/ v)) u u' Hu) as (c & E & C).
  { intros c _. apply (derivable_pt_lim_comp (fun s => s / v) atan).
    - replace (/ v) with (1 * / v + c * 0) by ring.
      apply (derivable_pt_lim_mult id (fct_cte (/ v))); [apply derivable_pt_lim_id|apply derivable_pt_lim_const].
    - replace (/ (1 + Rsqr (c / v))) with (/ (1 + (c / v) ^ 2)) by (unfold Rsqr; f_equal; ring).
      apply derivable_pt_lim_atan. }
  rewrite E.
  specialize (Hs c ltac:(lra)).
  assert (N : 0 < c * c + v * v) by (apply norm2_pos; right; exact Hv).
  replace (/ (1 + Rsqr (c / v)) * / v) with (v * / (c * c + v * v)).
  2:{ unfold Rsqr. field. repeat split; try exact Hv; intro Z; clear - Z N; nra. }
  rewrite Rabs_mult, (Rabs_pos_eq (u' - u)) by lra.
  unfold Rdiv. rewrite (Rmult_comm (u' - u)). apply Rmult_le_compat_r; [lra|].
  rewrite Rabs_mult, (Rabs_pos_eq (/ _)) by (left; apply Rinv_0_lt_compat, N).
  apply Rmult_le_reg_r with (d * (c * c + v * v)); [apply Rmult_lt_0_compat; lra|].
  replace (Rabs v * / (c * c + v * v) * (d * (c * c + v * v))) with (Rabs v * d) by (field; lra).
  replace (/ d * (d * (c * c + v * v))) with (c * c + v * v) by (field; lra).
  (* |v| d <= |v|^2 ... *)
  set (m := sqrt (c * c + v * v)).
  assert (M : m * m = c * c + v * v) by (apply sqrt_sqrt; lra).
  assert (M0 : 0 <= m) by apply sqrt_pos.
  rewrite <- M. assert (V : Rabs v <= m).
  { apply Rsqr_incr_0_var; [|exact M0]. unfold Rsqr. rewrite <- Rabs_mult, Rabs_pos_eq by nra. nra. }
  assert (D : d <= m) by (apply Rsqr_incr_0_var; [unfold Rsqr; lra|exact M0]).
  apply Rmult_le_compat; try lra. apply Rabs_pos.
Qed.

Lemma ang_lip horiz v d u u' : 0 < d -> u <= u' ->
  (forall s, u <= s <= u' -> d * d <= s * s + v * v) ->
  Rabs (ang horiz v u' - ang horiz v u) <= (u' - u) / d.
Proof.
  intros Hd [Hu|<-] Hs.
  2:{ unfold Rminus. rewrite !Rplus_opp_r, Rabs_R0. unfold Rdiv. lra. }
  destruct (Req_EM_T v 0) as [V|V].
  - subst v. rewrite ang_diff.
    + unfold at0. destruct (Req_EM_T 0 0) as [_|C]; [|congruence].
      rewrite Rminus_0_r, Rmult_0_r, Rabs_R0. apply Rlt_le. apply Rdiv_lt_0_compat; lra.
    + right. destruct (Rlt_dec 0 u) as [A|A]; [nra|]. destruct (Rlt_dec u' 0) as [B|B]; [nra|].
      exfalso. specialize (Hs 0 ltac:(lra)). nra.
  - rewrite ang_diff by (left; exact V). rewrite Rabs_mult.
    replace (Rabs (sg horiz)) with 1.
    2:{ unfold sg. destruct horiz; [rewrite Rabs_left; lra|rewrite Rabs_pos_eq; lra]. }
    rewrite Rmult_1_l. unfold at0. destruct (Req_EM_T v 0) as [C|_]; [contradiction|].
    apply atan_lip; assumption.
Qed.

(** ** Going around a rectangle *)
Definition sgn (x : R) : R := if Rlt_dec 0 x then 1 else if Rlt_dec x 0 then -1 else 0.

Lemma at0_corner a b : at0 a b + at0 b a = PI / 2 * sgn a * sgn b.
Proof.
  unfold at0, sgn.
  destruct (Req_EM_T b 0) as [B|B], (Req_EM_T a 0) as [A|A].
  - subst. destruct (Rlt_dec 0 0) as [C|_]; [elim (Rlt_irrefl _ C)|ring].
  - subst b. replace (0 / a) with 0 by (field; exact A). rewrite atan_0.
    destruct (Rlt_dec 0 0) as [C|_]; [elim (Rlt_irrefl _ C)|ring].
  - subst a. replace (0 / b) with 0 by (field; exact B). rewrite atan_0.
    destruct (Rlt_dec 0 0) as [C|_]; [elim (Rlt_irrefl _ C)|ring].
  - replace (b / a) with (/ (a / b)) by (field; split; assumption).
    assert (POS : 0 < a / b -> atan (a / b) + atan (/ (a / b)) = PI / 2).
    { intro P. rewrite atan_inv by exact P. lra. }
    assert (NEG : a / b < 0 -> atan (a / b) + atan (/ (a / b)) = - (PI / 2)).
    { intro P. assert (X : exists x, 0 < x /\ a / b = - x) by (exists (- (a / b)); lra).
      destruct X as (x & X0 & ->). rewrite Rinv_opp, !atan_opp, (atan_inv x X0). lra. }
    destruct (Rlt_dec 0 a) as [A1|A1], (Rlt_dec 0 b) as [B1|B1].
    + rewrite POS; [lra|]. apply Rdiv_lt_0_compat; assumption.
    + destruct (Rlt_dec b 0) as [B2|B2]; [|exfalso; lra]. rewrite NEG; [lra|].
      unfold Rdiv. pose proof (Rinv_lt_0_compat _ B2). nra.
    + destruct (Rlt_dec a 0) as [A2|A2]; [|exfalso; lra]. rewrite NEG; [lra|].
      unfold Rdiv. pose proof (Rinv_0_lt_compat _ B1). nra.
    + destruct (Rlt_dec a 0) as [A2|A2]; [|exfalso; lra]. destruct (Rlt_dec b 0) as [B2|B2]; [|exfalso; lra].
      rewrite POS; [lra|]. unfold Rdiv. pose proof (Rinv_lt_0_compat _ B2). nra.
Qed.

(** Coordinates of the corners relative to the zero. *)
Lemma around a1 a2 b1 b2 :
  - (at0 a2 b1 - at0 a1 b1) + (at0 b2 a2 - at0 b1 a2) + (at0 a2 b2 - at0 a1 b2) - (at0 b2 a1 - at0 b1 a1)
  = PI / 2 * (sgn a2 - sgn a1) * (sgn b2 - sgn b1).
Proof.
  pose proof (at0_corner a1 b1). pose proof (at0_corner a2 b1).
  pose proof (at0_corner a2 b2). pose proof (at0_corner a1 b2). lra.
Qed.
