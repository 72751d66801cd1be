(** * Properties C36-C43 and C64: the summation estimator *)
From Coq Require Import Reals.
From Verif Require Import PyBase Cache_Proofs Sum_Model Sum_Spec Angle_Proofs Sum_Proofs Sum_Proofs2 Sum_Proofs3 Sum_Proofs4 Sum_Proofs5 Sum_Proofs6 Sum_Examples Sum_Found.
From Coq Require Import Qreals Lra Lqa.
Open Scope Z_scope.

(** ** C36 *)
(** Principal arguments of consecutive quotients of a closed sequence of non-zero values sum
    up to whole turns ... *)
Theorem C36_closed_sequence :
  forall v vs, Forall nonzero (v :: vs) -> last (v :: vs) v = v ->
  exists k : Z, (Rsum (steps (v :: vs)) = 2 * PI * IZR k)%R.
Proof. exact closed_turns. Qed.
Print Assumptions C36_closed_sequence.

Example C36_sequence_nonvacuous :
  Forall nonzero [(1, 0); (0, 1); (-1, 0); (1, 0)]%R /\ last [(1, 0); (0, 1); (-1, 0); (1, 0)]%R (1, 0)%R = (1, 0)%R.
Proof. split; [|reflexivity]. repeat constructor; intro C; injection C; intros; Lra.lra. Qed.

(** ... and so do the four answers of the estimator for the sides of any rectangle, for every
    function, threshold and sampling, provided no sample point was a zero of f and the levels
    of the four sides are not in the estimator's cache. *)
Theorem C36_rectangle :
  forall f delta mp n prec, (0 < delta)%R -> (2 <= n)%nat ->
  forall x1 x2 y1 y2 fuel1 fuel2 fuel3 fuel4 st st1 st2 st3 st4 p1 p2 p3 p4,
    (x1 < x2)%Q -> (y1 < y2)%Q ->
    level_free st true y1 -> level_free st true y2 -> level_free st false x1 -> level_free st false x2 ->
    sum_line f delta mp n prec fuel1 0 (x1, y1) (x2, y1) st = (st1, SumOk [] p1) ->
    sum_line f delta mp n prec fuel2 0 (x2, y1) (x2, y2) st1 = (st2, SumOk [] p2) ->
    sum_line f delta mp n prec fuel3 0 (x2, y2) (x1, y2) st2 = (st3, SumOk [] p3) ->
    sum_line f delta mp n prec fuel4 0 (x1, y2) (x1, y1) st3 = (st4, SumOk [] p4) ->
    (exists k : Z, p1 + p2 + p3 + p4 = 2 * PI * IZR k)%R.
Proof. exact rectangle_whole_turns. Qed.
Print Assumptions C36_rectangle.

Example C36_rectangle_nonvacuous : exists st1 st2 st3 st4 p1 p2 p3 p4,
  sum_line identity 5 (1#1000) 3 (5, 5) 1 0 (-1, -1)%Q (1, -1)%Q fresh_sum = (st1, SumOk [] p1) /\
  sum_line identity 5 (1#1000) 3 (5, 5) 1 0 (1, -1)%Q (1, 1)%Q st1 = (st2, SumOk [] p2) /\
  sum_line identity 5 (1#1000) 3 (5, 5) 1 0 (1, 1)%Q (-1, 1)%Q st2 = (st3, SumOk [] p3) /\
  sum_line identity 5 (1#1000) 3 (5, 5) 1 0 (-1, 1)%Q (-1, -1)%Q st3 = (st4, SumOk [] p4).
Proof. exact square_runs. Qed.

(** ** C37 *)
(** Values with known arguments, neighbouring ones less than half a turn apart: the sum is the
    true change of argument. *)
Theorem C37_sequence :
  forall (vs : list (cR * (R * R))) v r t,
  Forall (fun e => polar (fst e) (fst (snd e)) (snd (snd e))) ((v, (r, t)) :: vs) ->
  chain (fun a b => Rabs (snd (snd b) - snd (snd a)) < PI)%R ((v, (r, t)) :: vs) ->
  Rsum (steps (v :: map fst vs)) = (snd (snd (last vs (v, (r, t)))) - t)%R.
Proof. exact sequence_exact. Qed.
Print Assumptions C37_sequence.

(** A line not in the cache, along which f has argument theta(t): if theta changes by less
    than half a turn between any points not farther apart than the initial sampling, the
    estimator's answer is exact (whatever it refines). *)
Theorem C37_line :
  forall f delta mp n prec, (0 < delta)%R -> (2 <= n)%nat ->
  forall horiz level fuel t1 t2 st st' p (theta radius : Q -> R),
    (t1 < t2)%Q -> level_free st horiz level ->
    (forall z z', ceq z z' -> f z = f z') ->
    (forall t, (t1 <= t)%Q -> (t <= t2)%Q -> polar (f (mkpoint horiz level t)) (radius t) (theta t)) ->
    (forall t t', (t1 <= t)%Q -> (t < t')%Q -> (t' <= t2)%Q ->
       (t' - t <= (t2 - t1) / inject_Z (Z.of_nat (n - 1)))%Q -> (Rabs (theta t' - theta t) < PI)%R) ->
    sum_line f delta mp n prec fuel 0 (mkpoint horiz level t1) (mkpoint horiz level t2) st = (st', SumOk [] p) ->
    p = (theta t2 - theta t1)%R.
Proof. exact line_exact. Qed.
Print Assumptions C37_line.

(** All four sides: the estimate for the rectangle is the true change of argument around it,
    i.e. the winding number times 2 pi. *)
Theorem C37_rectangle :
  forall f delta mp n prec, (0 < delta)%R ->
  forall x1 x2 y1 y2 fuel1 fuel2 fuel3 fuel4 st st1 st2 st3 st4 p1 p2 p3 p4
     (bottom right top left : Q -> R) (rb rr rt rl : Q -> R),
    (2 <= n)%nat -> (x1 < x2)%Q -> (y1 < y2)%Q ->
    (forall z z', ceq z z' -> f z = f z') ->
    level_free st true y1 -> level_free st true y2 -> level_free st false x1 -> level_free st false x2 ->
    (forall t, (x1 <= t)%Q -> (t <= x2)%Q -> polar (f (t, y1)) (rb t) (bottom t) /\ polar (f (t, y2)) (rt t) (top t)) ->
    (forall t, (y1 <= t)%Q -> (t <= y2)%Q -> polar (f (x1, t)) (rl t) (left t) /\ polar (f (x2, t)) (rr t) (right t)) ->
    (forall t t', (x1 <= t)%Q -> (t < t')%Q -> (t' <= x2)%Q -> (t' - t <= (x2 - x1) / inject_Z (Z.of_nat (n - 1)))%Q ->
       (Rabs (bottom t' - bottom t) < PI)%R /\ (Rabs (top t' - top t) < PI)%R) ->
    (forall t t', (y1 <= t)%Q -> (t < t')%Q -> (t' <= y2)%Q -> (t' - t <= (y2 - y1) / inject_Z (Z.of_nat (n - 1)))%Q ->
       (Rabs (left t' - left t) < PI)%R /\ (Rabs (right t' - right t) < PI)%R) ->
    bottom x2 = right y1 -> right y2 = top x2 -> top x1 = left y2 ->
    sum_line f delta mp n prec fuel1 0 (x1, y1) (x2, y1) st = (st1, SumOk [] p1) ->
    sum_line f delta mp n prec fuel2 0 (x2, y1) (x2, y2) st1 = (st2, SumOk [] p2) ->
    sum_line f delta mp n prec fuel3 0 (x2, y2) (x1, y2) st2 = (st3, SumOk [] p3) ->
    sum_line f delta mp n prec fuel4 0 (x1, y2) (x1, y1) st3 = (st4, SumOk [] p4) ->
    (p1 + p2 + p3 + p4 = left y1 - bottom x1)%R.
Proof. exact rectangle_winding. Qed.
Print Assumptions C37_rectangle.

(** For example the identity winds once around the square [-1,1]^2, for all settings. *)
Example C37_nonvacuous :
  forall delta mp n prec fuel1 fuel2 fuel3 fuel4 st1 st2 st3 st4 p1 p2 p3 p4,
  (0 < delta)%R -> (2 <= n)%nat ->
  sum_line identity delta mp n prec fuel1 0 (-1, -1)%Q (1, -1)%Q fresh_sum = (st1, SumOk [] p1) ->
  sum_line identity delta mp n prec fuel2 0 (1, -1)%Q (1, 1)%Q st1 = (st2, SumOk [] p2) ->
  sum_line identity delta mp n prec fuel3 0 (1, 1)%Q (-1, 1)%Q st2 = (st3, SumOk [] p3) ->
  sum_line identity delta mp n prec fuel4 0 (-1, 1)%Q (-1, -1)%Q st3 = (st4, SumOk [] p4) ->
  (p1 + p2 + p3 + p4 = 2 * PI)%R.
Proof. exact square_winding. Qed.

(** Without the bound the answer may miss whole turns: this function has argument 2 pi t at
    t, i.e. turns twice between 0 and 2; with 3 initial samples the answer is 0, for all
    thresholds. *)
Theorem C37_without_bound_refuted :
  exists f : cplx -> cR, (forall t, polar (f (t, 0)%Q) 1 (2 * PI * Q2R t)) /\
  forall delta mp prec fuel, (0 < delta)%R ->
  snd (sum_line f delta mp 3 prec (S fuel) 0 (0, 0)%Q (2, 0)%Q fresh_sum) = SumOk [] 0%R.
Proof. exists turning. split; [exact turning_polar|exact undersampled]. Qed.
Print Assumptions C37_without_bound_refuted.

(** ** C38 *)
(** The refinement loop ends whenever the search for zero-free samples does; *)
Theorem C38_terminates :
  forall f delta mp n prec, (0 < delta)%R -> forall a b, (1 <= n)%nat ->
    (forall c d m, exists fuel, genFuncArr (vanishes f) prec fuel c d m <> None) ->
    exists fuel, gen_phi f delta mp n prec fuel 0 a b <> GenLoops.
Proof. exact gen_phi_terminates. Qed.
Print Assumptions C38_terminates.

(** if f has no zeros, 100 numPts + 3 rounds are enough. *)
Theorem C38_bound :
  forall f delta mp n prec, (0 < delta)%R -> forall a b fuel,
    (1 <= n)%nat -> (forall z, nonzero (f z)) -> (100 * n + 3 <= fuel)%nat ->
    gen_phi f delta mp n prec fuel 0 a b <> GenLoops.
Proof. exact gen_phi_bound. Qed.
Print Assumptions C38_bound.

(** On exit all increments are below the threshold, or the first one that is not belongs to
    samples closer than maxPrecision, or there are more than 100 numPts samples. *)
Theorem C38_result :
  forall f delta mp n prec, (0 < delta)%R -> forall a b fuel zs phis zeros, (1 <= n)%nat ->
    gen_phi f delta mp n prec fuel 0 a b = Gen zs phis zeros ->
    List.length zs = S (List.length phis) /\ (n <= List.length zs)%nat /\
    ((forall p, In p phis -> (Rabs p < delta)%R) \/
     (exists k, (k < List.length phis)%nat /\ (delta <= Rabs (nth k phis 0%R))%R /\
        (forall j, (j < k)%nat -> (Rabs (nth j phis 0%R) < delta)%R) /\
        (nearer mp (nth k zs (0, 0)%Q) (nth (S k) zs (0, 0)%Q) = true \/
         (100 * n < List.length zs)%nat))).
Proof. exact gen_phi_result. Qed.
Print Assumptions C38_result.

(** If no zero was met: the samples start and end at the end points of the line, stay on it,
    strictly increase by at most the initial step, and the phases are those of f there. *)
Theorem C38_samples_on_line :
  forall f delta mp n prec, (0 < delta)%R -> forall horiz level t1 t2 fuel zs phis,
    (2 <= n)%nat -> (t1 < t2)%Q ->
    gen_phi f delta mp n prec fuel 0 (mkpoint horiz level t1) (mkpoint horiz level t2) = Gen zs phis [] ->
    phis = steps (map f zs) /\
    (exists mid, zs = mkpoint horiz level t1 :: mid ++ [mkpoint horiz level t2]) /\
    chain (on_line (coord_of horiz) (other_of horiz) level ((t2 - t1) / inject_Z (Z.of_nat (n - 1)))) zs /\
    (forall z, In z zs -> nonzero (f z)).
Proof.
  intros f delta mp n prec Hd horiz level t1 t2 fuel zs phis Hn Ht E. rewrite <- increments_steps.
  exact (gen_phi_on_line f delta mp n prec Hd horiz level t1 t2 fuel zs phis Hn Ht E).
Qed.
Print Assumptions C38_samples_on_line.

(** If a zero was met, not even the end points are kept. *)
Theorem C38_end_points_refuted :
  exists zs phis zero,
  gen_phi identity 5 (1#1000) 3 (5, 5) 3 0 (-1, 0)%Q (1, 0)%Q = Gen zs phis [zero] /\ ceq zero (0, 0)%Q /\
  forall z, In z zs -> ~ (im z == 0)%Q.
Proof.
  destruct zero_on_sample as (zs & phis & E & H). exists zs, phis, (-1 + (1#2) * (1 - -1), 0 + (1#2) * (0 - 0))%Q.
  split; [exact E|]. split; [split; reflexivity|exact H].
Qed.
Print Assumptions C38_end_points_refuted.

Example C38_nonvacuous :
  exists zs phis, gen_phi one 5 (1#1000) 3 (5, 5) 1 0 (mkpoint true 0 (-1)) (mkpoint true 0 1) = Gen zs phis [].
Proof.
  eexists _, _. apply gen_phi_unrefined; [pose proof PI_4; Lra.lra|].
  intros z _ C. injection C as C. Lra.lra.
Qed.

(** ** C39 *)
(** genFuncArr returns the uniform samples moved by the least number of shifts for which no
    sample is a zero, and reports exactly the zeros met before. *)
Theorem C39_result :
  forall f prec fuel a b size out found,
  genFuncArr (vanishes f) prec fuel a b size = Some (out, found) ->
  exists n, out = shifted (line_shift prec a b) n (linspaceC a b size) /\
    filter (vanishes f) out = [] /\
    (forall m, (m < n)%nat -> filter (vanishes f) (shifted (line_shift prec a b) m (linspaceC a b size)) <> []) /\
    found = flat_map (fun m => filter (vanishes f) (shifted (line_shift prec a b) m (linspaceC a b size))) (seq 0 n).
Proof. intros f prec fuel a b size. exact (shift_loop_sound (vanishes f) (line_shift prec a b) fuel (linspaceC a b size)). Qed.
Print Assumptions C39_result.

(** The test used is f(z) = 0 ... *)
Theorem C39_zero_test : forall f z, vanishes f z = true <-> f z = (0, 0)%R.
Proof.
  intros f z. split; [|apply vanishes_true]. intro H.
  destruct (vanishes_false f z) as [_ V]. destruct (Req_EM_T (fst (f z)) 0) as [A|A], (Req_EM_T (snd (f z)) 0) as [B|B].
  - destruct (f z); cbn in *; subst; reflexivity.
  - exfalso. rewrite V in H; [discriminate|]. intro C. apply B. rewrite C. reflexivity.
  - exfalso. rewrite V in H; [discriminate|]. intro C. apply A. rewrite C. reflexivity.
  - exfalso. rewrite V in H; [discriminate|]. intro C. apply A. rewrite C. reflexivity.
Qed.
Print Assumptions C39_zero_test.

(** ... the samples are uniform and n shifts move each of them by n times 2e-precision across
    the line. *)
Theorem C39_uniform : forall a b m,
  Forall2 ceq (uniform a b (S m)) (linspaceC a b (S (S m))).
Proof. exact linspaceC_uniform. Qed.
Print Assumptions C39_uniform.

Theorem C39_shift_size :
  forall prec a b n zs i d, (i < List.length zs)%nat ->
  let moved := nth i (shifted (line_shift prec a b) n zs) d in
  let z := nth i zs d in
  ((im a == im b)%Q -> ceq moved (re z, im z + inject_Z (Z.of_nat n) * (2 * pow10 (- snd prec)))%Q) /\
  (~ (im a == im b)%Q -> ceq moved (re z + inject_Z (Z.of_nat n) * (2 * pow10 (- fst prec)), im z)%Q).
Proof.
  intros prec a b n zs i d Hi moved z.
  pose proof (shifted_points (line_shift prec a b) n zs i d Hi) as P. fold moved z in P. unfold line_shift in P.
  destruct (Qeq_bool (im a) (im b)) eqn:E.
  - apply Qeq_bool_iff in E. split; [intros _|contradiction].
    destruct P as [P1 P2]. cbn [re im fst snd] in P1, P2. split; cbn [re im fst snd]; [rewrite P1; ring|exact P2].
  - split; [intro C; apply Qeq_bool_iff in C; congruence|intros _].
    destruct P as [P1 P2]. cbn [re im fst snd] in P1, P2. split; cbn [re im fst snd]; [exact P1|rewrite P2; ring].
Qed.
Print Assumptions C39_shift_size.

(** It ends iff some number of shifts avoids all zeros; never for the zero function. *)
Theorem C39_terminates :
  forall f prec a b size,
  (exists fuel r, genFuncArr (vanishes f) prec fuel a b size = Some r) <->
  (exists n, forall z, In z (shifted (line_shift prec a b) n (linspaceC a b size)) -> nonzero (f z)).
Proof.
  intros f prec a b size. unfold genFuncArr. rewrite shift_loop_terminates.
  assert (E : forall l, filter (vanishes f) l = [] <-> (forall z, In z l -> nonzero (f z))).
  { intro l. split.
    - intros H z Hz. apply vanishes_false. destruct (vanishes f z) eqn:V; [|reflexivity].
      assert (X : In z (filter (vanishes f) l)) by (apply filter_In; auto). rewrite H in X. contradiction.
    - intro H. induction l as [|z l IH]; [reflexivity|]. cbn.
      assert (vanishes f z = false) as -> by (apply vanishes_false, H; left; reflexivity).
      apply IH. intros; apply H; right; assumption. }
  split; intros [n H]; exists n; apply E; exact H.
Qed.
Print Assumptions C39_terminates.

Theorem C39_always_terminates_refuted :
  forall prec fuel a b size, (1 <= size)%nat -> genFuncArr (vanishes (fun _ => (0, 0)%R)) prec fuel a b size = None.
Proof.
  intros prec fuel a b size H. destruct (genFuncArr _ prec fuel a b size) as [[out found]|] eqn:E; [exfalso|reflexivity].
  pose proof (genFuncArr_length _ _ _ _ _ _ _ _ E) as L.
  destruct (C39_result _ _ _ _ _ _ _ _ E) as (n & _ & F & _).
  destruct out as [|z out]; [cbn in L; lia|]. cbn in F. rewrite vanishes_true in F by reflexivity. discriminate.
Qed.
Print Assumptions C39_always_terminates_refuted.

(** The answer to a request: whatever the caches hold, only zeros of f are reported; and all zeros among the
    evenly spaced samples are, unless the level is in the cache. *)
Theorem C39_line_reports :
  forall f delta mp n prec fuel order a b st st' found p,
  sum_line f delta mp n prec fuel order a b st = (st', SumOk found p) -> forall z, In z found -> f z = (0, 0)%R.
Proof. exact line_found_zero. Qed.
Print Assumptions C39_line_reports.
Theorem C39_line_reports_all :
  forall f delta mp m prec fuel horiz level t1 t2 st st' found p,
  (forall z z', ceq z z' -> f z = f z') -> (t1 < t2)%Q -> level_free st horiz level ->
  sum_line f delta mp (S (S m)) prec fuel 0 (mkpoint horiz level t1) (mkpoint horiz level t2) st = (st', SumOk found p) ->
  forall z, In z (uniform (mkpoint horiz level t1) (mkpoint horiz level t2) (S m)) -> f z = (0, 0)%R -> exists z', In z' found /\ ceq z z'.
Proof. exact line_found_all. Qed.
Print Assumptions C39_line_reports_all.

Example C39_nonvacuous : exists zs, filter (vanishes identity) (linspaceC (-1, 0)%Q (1, 0)%Q 3) <> [] /\
  genFuncArr (vanishes identity) (5, 5) 3 (-1, 0)%Q (1, 0)%Q 3 = Some zs.
Proof.
  destruct zero_on_sample as (zs & phis & E & _). unfold gen_phi, genPhiArr in E. cbn [Z.eqb] in E.
  destruct (genFuncArr _ _ _ _ _ _) as [r|]; [|discriminate]. exists r. split; [|reflexivity].
  cbn [linspaceC map seq app filter]. rewrite (vanishes_true identity (linpoint (-1, 0)%Q (1, 0)%Q 2 1)).
  - destruct (vanishes identity (-1, 0)%Q); discriminate.
  - rewrite (identity_proper _ (0, 0)%Q) by (split; reflexivity). unfold identity. cbn [re im fst snd]. rewrite Q2R_0. reflexivity.
Qed.

(** ** C40 *)
(** A line in the cache is split at tm (leaving at least three samples on each side).  If tm
    lies strictly between neighbouring samples, the two parts sum exactly to the whole; if tm
    is a sample, the increment after it is counted twice.  The function and settings used for
    the parts do not matter. *)
Theorem C40_split :
  forall f delta mp n prec, (0 < delta)%R -> (2 <= n)%nat ->
  forall horiz level fuel t1 t2 st0 st p,
    (t1 < t2)%Q -> level_free st0 horiz level ->
    let pt := mkpoint horiz level in
    let co := coord_of horiz in
    sum_line f delta mp n prec fuel 0 (pt t1) (pt t2) st0 = (st, SumOk [] p) ->
    exists zs, p = Rsum (steps (map f zs)) /\
      chain (on_line co (other_of horiz) level ((t2 - t1) / inject_Z (Z.of_nat (n - 1)))) zs /\
      hd_error zs = Some (pt t1) /\ last zs (pt t1) = pt t2 /\
      forall i tm, (2 <= i)%nat -> (i + 4 <= List.length zs)%nat ->
      forall g delta' mp' n' prec' fuel' g2 delta2 mp2 n2 prec2 fuel2,
      ((co (nth i zs (pt 0%Q)) < tm)%Q -> (tm < co (nth (S i) zs (pt 0%Q)))%Q ->
        exists st1 st2 pl pr,
          sum_line g delta' mp' n' prec' fuel' 0 (pt t1) (pt tm) st = (st1, SumOk [] pl) /\
          sum_line g2 delta2 mp2 n2 prec2 fuel2 0 (pt tm) (pt t2) st1 = (st2, SumOk [] pr) /\
          (pl + pr = p)%R) /\
      ((co (nth i zs (pt 0%Q)) == tm)%Q ->
        exists st1 st2 pl pr,
          sum_line g delta' mp' n' prec' fuel' 0 (pt t1) (pt tm) st = (st1, SumOk [] pl) /\
          sum_line g2 delta2 mp2 n2 prec2 fuel2 0 (pt tm) (pt t2) st1 = (st2, SumOk [] pr) /\
          (pl + pr = p + phase_step f (nth i zs (pt 0%Q)) (nth (S i) zs (pt 0%Q)))%R).
Proof.
  intros. edestruct split_line as (zs & HZ); [eassumption..|]. exists zs. rewrite <- increments_steps. exact HZ.
Qed.
Print Assumptions C40_split.

Example C40_nonvacuous : exists st p,
  sum_line one 5 (1#1000) 11 (5, 5) 1 0 (0, 0)%Q (0, 10)%Q fresh_sum = (st, SumOk [] p).
Proof. destruct vertical_index_error as (st1 & _ & p1 & _ & E & _). exists st1, p1. exact E. Qed.

(** ** C41 *)
(** A line whose level is not in the cache gets the answer of a new estimator: it depends on
    the current function only. *)
Theorem C41_fresh_level :
  forall f delta mp n prec horiz level fuel t1 t2 st, (t1 < t2)%Q -> level_free st horiz level ->
  snd (sum_line f delta mp n prec fuel 0 (mkpoint horiz level t1) (mkpoint horiz level t2) st) =
  snd (sum_line f delta mp n prec fuel 0 (mkpoint horiz level t1) (mkpoint horiz level t2) fresh_sum).
Proof. exact free_level_fresh. Qed.
Print Assumptions C41_fresh_level.

(** If samples for a line with this start are cached, at least three of them up to t2 (number
    m being the last such), the function is not looked at. *)
Theorem C41_cached_start :
  forall (horiz : bool) (level : Q) g delta mp n prec fuel t1 t2 st zs phis m, (t1 < t2)%Q ->
    cached (if horiz then horizontal st else vertical st) level 0 t1 StartSide = Some (zs, phis) ->
    (3 <= List.length (filter (fun z => Qle_bool (coord_of horiz z) t2) zs))%nat ->
    (m < List.length zs)%nat -> (coord_of horiz (nth m zs (0, 0)) <= t2)%Q ->
    (forall j, (m < j < List.length zs)%nat -> (t2 < coord_of horiz (nth j zs (0, 0)))%Q) ->
    snd (sum_line g delta mp n prec fuel 0 (mkpoint horiz level t1) (mkpoint horiz level t2) st) =
      SumOk [] (Rsum (firstn (S m) phis)).
Proof.
  intros horiz level g delta mp n prec fuel t1 t2 st zs phis m L HC H3 M1 M2 M3.
  assert (HM : last_index (fun z => Qle_bool (coord_of horiz z) t2) zs = Some m).
  { apply (last_index_char _ (0, 0)%Q); [exact M1|apply Qle_bool_iff, M2|].
    intros j J1 J2. destruct (Qle_bool _ _) eqn:E; [|reflexivity]. apply Qle_bool_iff in E.
    exfalso. exact (Qlt_not_le _ _ (M3 j (conj J1 J2)) E). }
  destruct (start_hit horiz level g delta mp n prec fuel t1 t2 st zs phis m L HC H3 HM) as (st' & E & _).
  rewrite E. reflexivity.
Qed.
Print Assumptions C41_cached_start.

(** After a line was served, every longer line with the same start gets the shorter one's
    phase, for every function - even for the same one. *)
Theorem C41_requery :
  forall f delta mp n prec, (0 < delta)%R -> (2 <= n)%nat ->
  forall horiz level fuel t1 tm st0 st p, (t1 < tm)%Q -> (3 <= n)%nat -> level_free st0 horiz level ->
    sum_line f delta mp n prec fuel 0 (mkpoint horiz level t1) (mkpoint horiz level tm) st0 = (st, SumOk [] p) ->
    forall t2 g delta' mp' n' prec' fuel', (tm <= t2)%Q ->
    snd (sum_line g delta' mp' n' prec' fuel' 0 (mkpoint horiz level t1) (mkpoint horiz level t2) st) = SumOk [] p.
Proof. exact requery. Qed.
Print Assumptions C41_requery.

(** Hence answers depend on history: here the constant 1 (phase 0) gets the phase pi/2 of the
    identity. *)
Theorem C41_history_independent_refuted : exists st1 st2 p,
  sum_line identity 5 (1#1000) 3 (5, 5) 1 0 (-1, -1)%Q (1, -1)%Q fresh_sum = (st1, SumOk [] (PI / 2)%R) /\
  snd (sum_line one 5 (1#1000) 3 (5, 5) 1 0 (-1, -1)%Q (1, -1)%Q st1) = SumOk [] (PI / 2)%R /\
  sum_line one 5 (1#1000) 3 (5, 5) 1 0 (-1, -1)%Q (1, -1)%Q fresh_sum = (st2, SumOk [] p) /\ p = 0%R.
Proof. exact stale_line. Qed.
Print Assumptions C41_history_independent_refuted.

(** ** C42 *)
(** In every state, the reversed line gets the negative of the answer (same zeros, same
    exception, same new state). *)
Theorem C42_reversal_horizontal :
  forall f delta mp n prec fuel order x1 x2 y st, ~ (x1 == x2)%Q ->
  sum_line f delta mp n prec fuel order (x2, y) (x1, y) st =
  (fst (sum_line f delta mp n prec fuel order (x1, y) (x2, y) st),
   negated (snd (sum_line f delta mp n prec fuel order (x1, y) (x2, y) st))).
Proof. exact sum_line_swap. Qed.
Print Assumptions C42_reversal_horizontal.

Theorem C42_reversal_vertical :
  forall f delta mp n prec fuel order x y1 y2 st, ~ (y1 == y2)%Q ->
  sum_line f delta mp n prec fuel order (x, y2) (x, y1) st =
  (fst (sum_line f delta mp n prec fuel order (x, y1) (x, y2) st),
   negated (snd (sum_line f delta mp n prec fuel order (x, y1) (x, y2) st))).
Proof. exact sum_line_swap_vertical. Qed.
Print Assumptions C42_reversal_vertical.

(** ** C43 *)
Theorem C43_oblique_rejected :
  forall f delta mp n prec fuel order a b st, ~ parallel a b ->
  sum_line f delta mp n prec fuel order a b st = (st, SumErr ValueError).
Proof. exact oblique_rejected. Qed.
Print Assumptions C43_oblique_rejected.

Theorem C43_errors_keep_state :
  forall f delta mp n prec fuel order a b st st' e,
  sum_line f delta mp n prec fuel order a b st = (st', SumErr e) -> st' = st.
Proof. exact error_keeps_state. Qed.
Print Assumptions C43_errors_keep_state.

(** After every history of requests, orders other than 0 are rejected. *)
Theorem C43_higher_orders_rejected :
  forall h f delta mp n prec fuel order a b, order <> 0 -> parallel a b ->
  sum_line f delta mp n prec fuel order a b (served h) = (served h, SumErr NotImplementedError).
Proof. exact higher_orders_rejected. Qed.
Print Assumptions C43_higher_orders_rejected.

Example C43_nonvacuous : ~ parallel (0, 0)%Q (1, 1)%Q /\ parallel (0, 0)%Q (1, 0)%Q.
Proof. split; [intros [C|C]; discriminate|left; reflexivity]. Qed.

(** ** C64 *)
(** Horizontal requests of order 0 never raise, in any state ... *)
Theorem C64_horizontal_never_raises :
  forall f delta mp n prec fuel a b st, (im a == im b)%Q ->
  forall e, snd (sum_line f delta mp n prec fuel 0 a b st) <> SumErr e.
Proof. exact horizontal_no_error. Qed.
Print Assumptions C64_horizontal_never_raises.

(** ... vertical ones may: after 0 -> 10i and 0 -> 4.5i (11 samples), 4.2i -> 4.5i raises. *)
Theorem C64_vertical_never_raises_refuted : exists st1 st2 p1 p2,
  sum_line one 5 (1#1000) 11 (5, 5) 1 0 (0, 0)%Q (0, 10)%Q fresh_sum = (st1, SumOk [] p1) /\
  sum_line one 5 (1#1000) 11 (5, 5) 1 0 (0, 0)%Q (0, 9#2)%Q st1 = (st2, SumOk [] p2) /\
  snd (sum_line one 5 (1#1000) 11 (5, 5) 1 0 (0, 21#5)%Q (0, 9#2)%Q st2) = SumErr IndexError.
Proof. exact vertical_index_error. Qed.
Print Assumptions C64_vertical_never_raises_refuted.
