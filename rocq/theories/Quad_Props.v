(** * Property C44: the quadrature estimator *)
From Coq Require Import Reals Qreals.
From Verif Require Import PyBase Sum_Model Sum_Spec Sum_Proofs4 Quad_Model Quad_Spec Quad_Proofs Quad_Proofs2.
From Coq Require Import Lra Lqa.
Open Scope Z_scope.

(** Whatever the function and integration rule: on exit there are 2^k + 1 samples with
    10 <= k <= 22 and as many integrand values, and merging never fails. *)
Theorem C44_sampling :
  forall fz g romb small prec a b fuel,
  (forall c s, quad_iterate fz g romb small prec (distance a b) fuel a b = QuadDone c s ->
     (10 <= samplePts s <= 22)%nat /\ List.length (q_z s) = (2 ^ samplePts s + 1)%nat /\ q_func s = map g (q_z s)) /\
  (forall e, quad_iterate fz g romb small prec (distance a b) fuel a b <> QuadErr e).
Proof. exact quad_sampling. Qed.
Print Assumptions C44_sampling.

(** It ends whenever the search for zero-free samples does. *)
Theorem C44_terminates :
  forall romb f df prec order a b,
  (forall c e m, exists fuel, genFuncArr (vanishes f) prec fuel c e m <> None) ->
  exists fuel, forall fuel', (fuel <= fuel')%nat -> quad_line romb f df prec fuel' order a b <> QuadHangs.
Proof. exact quad_terminates. Qed.
Print Assumptions C44_terminates.

(** Interleaving a uniform grid with N samples between the midpoints of its first and last
    cell gives the uniform grid of twice the resolution. *)
Theorem C44_merge_doubles :
  forall a b N, (2 <= N)%nat ->
  exists l, mergeArray (uniform a b N)
      (linspaceC (point_at a b (2 * N) 1) (point_at a b (2 * N) (2 * N - 1)) N) = Some l /\
    Forall2 ceq (uniform a b (2 * N)) l.
Proof.
  intros a b N H.
  pose proof (new_samples a b N _ _ H (first_midpoint a b N H) (last_midpoint a b N H)) as NS.
  assert (RF : Forall2 ceq (uniform a b N) (uniform a b N)).
  { generalize (uniform a b N). intro l. induction l; constructor; auto using ceq_refl'. }
  destruct (mergeArray_F2 ceq _ _ _ _ _ RF NS (merge_uniform a b N ltac:(lia))) as (l & E & F).
  exists l. split; [exact E|]. eapply F2_trans; [|exact F]. apply F2_sym, uniform_double. lia.
Qed.
Print Assumptions C44_merge_doubles.

(** The answer (if no sample was a zero): let I(k) be the rule's value for 2^k + 1 uniform
    points.  The loop stops at the first k in 11..22 where I(k) and I(k-1) agree up to 1e-3
    in both parts, and I(k-1) is used; if there is none, I(22) is used.  The answer is
    (b - a) / (|b - a| i) times the used value, times 1 for k <= 12, but times 1 - 2^(1-k)
    for larger k. *)
Theorem C44_value :
  forall romb f df prec fuel order a b v, proper f -> proper df ->
  quad_line romb f (Some df) prec fuel order a b = QuadOk [] v ->
  exists stop used, stops_at (rule romb (moment_integrand f df order) a b) stop used /\
    v = scale (length_factor stop) (line_value a b (rule romb (moment_integrand f df order) a b used)).
Proof. exact quad_value. Qed.
Print Assumptions C44_value.

(** That the scaling is by the true length is refuted: here is a case (with an integration
    rule that does not converge) where the answer is smaller than it should be. *)
Theorem C44_true_length_refuted :
  exists romb f df prec fuel order a b v k, proper f /\ proper df /\
  quad_line romb f (Some df) prec fuel order a b = QuadOk [] v /\ (12 < k)%nat /\
  v = scale (1 - 1 / INR (2 ^ (k - 1))) (line_value a b (rule romb (moment_integrand f df order) a b k)) /\
  v <> line_value a b (rule romb (moment_integrand f df order) a b k).
Proof. exact quad_length_wrong. Qed.
Print Assumptions C44_true_length_refuted.

(** If the rule does not care about the direction, reversing a line negates the answer. *)
Theorem C44_reversal :
  forall romb f df prec fuel fuel' order a b v w,
  (forall k l dx, List.length l = S (2 ^ k) -> romb (rev l) dx = romb l dx) ->
  proper f -> proper df ->
  quad_line romb f (Some df) prec fuel order a b = QuadOk [] v ->
  quad_line romb f (Some df) prec fuel' order b a = QuadOk [] w ->
  w = neg_cR v.
Proof. exact quad_reversal. Qed.
Print Assumptions C44_reversal.

(** If the rule is exact for constants, constant integrands are integrated exactly. *)
Theorem C44_constant :
  forall romb f df prec fuel order a b c v,
  (forall k x dx, romb (repeat x (S (2 ^ k))) dx = (x * (INR (2 ^ k) * dx))%R) ->
  proper f -> proper df -> (forall z, moment_integrand f df order z = c) -> ~ ceq a b ->
  quad_line romb f (Some df) prec fuel order a b = QuadOk [] v ->
  v = times (real_point (re b - re a, im b - im a)%Q) (snd c, - fst c)%R.
Proof. exact quad_constant. Qed.
Print Assumptions C44_constant.

(** Romberg's rule has both properties. *)
Theorem C44_romberg :
  (forall k l dx, List.length l = S (2 ^ k) -> romberg (rev l) dx = romberg l dx) /\
  (forall k x dx, romberg (repeat x (S (2 ^ k))) dx = (x * (INR (2 ^ k) * dx))%R).
Proof. split; [exact romberg_rev|exact romberg_const]. Qed.
Print Assumptions C44_romberg.

(** Without derivative: ValueError. *)
Theorem C44_derivative_required :
  forall romb f prec fuel order a b, quad_line romb f None prec fuel order a b = QuadRaises ValueError.
Proof. reflexivity. Qed.
Print Assumptions C44_derivative_required.

(** Functions without zeros always get an answer. *)
Theorem C44_answers :
  forall romb f df prec order a b, (forall z, nonzero (f z)) ->
  exists fuel v, quad_line romb f (Some df) prec fuel order a b = QuadOk [] v.
Proof.
  intros romb f df prec order a b H. apply quad_runs. intro z.
  exact (proj2 (vanishes_false f z) (H z)).
Qed.
Print Assumptions C44_answers.

Example C44_nonvacuous : exists fuel v,
  quad_line romberg (fun _ => (1, 0)%R) (Some (fun _ => (1, 0)%R)) (5, 5) fuel 0 (0, 0)%Q (1, 0)%Q = QuadOk [] v.
Proof.
  apply C44_answers. intros z C. injection C as C. Lra.lra.
Qed.
