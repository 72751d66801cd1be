(** * What the jobs of the parallel finder look at (C88, C89) *)
From Coq Require Import Reals Qreals Qminmax.
From Verif Require Import PyBase Rounding_Model Poly_Model Container_Model Finder_Model Finder_Spec Finder_Proofs Refine_Model Refine_Spec Refine_Proofs
  Cache_Model Sum_Model Sum_Spec Quad_Model Whole_Model Qsearch_Model EndToEnd_Model EndToEnd_Spec EndToEnd_Proofs EndToEnd_Proofs2 Chunk_Model Chunk_Proofs
  Local_Spec Local_Proofs Local_Proofs2 Local_Proofs3 Local_Proofs4 Scale_Spec Scale_Proofs.
From Coq Require Import Lqa Lra Lia.
Open Scope Z_scope.

(** A task that reports no root of order 0 and does not raise. *)
Definition good_task (o : list root * option exn) : Prop := snd o = None /\ forall z, ~ In (z, 0) (fst o).

Section Pool.
  Context (free : Prop) {LS : Type} (line line' : Z -> cplx -> cplx -> LS -> LS * list cplx * res cplx)
    (debug : bool) (secant : cplx -> cplx -> res cplx) (newton : cplx -> res cplx) (polyroots : list cplx -> res (list cplx))
    (has_df : bool) (precision : Z * Z) (progress : bool) (v : variant) (depth : nat).
  Notation E := (cached_env line debug secant newton polyroots has_df precision progress).
  Notation E' := (cached_env line' debug secant newton polyroots has_df precision progress).

  Lemma job_same x s : proper (rect_of x) -> follows free (rect_of x) line line' ->
    (free \/ good_task (worker_output E v depth s x)) ->
    worker_output E' v depth s x = worker_output E v depth s x /\ job_leaves E' v depth x s = job_leaves E v depth x s.
  Proof.
    intros P F U.
    assert (K : calcRoots (env_for E' x) v depth (rect_of x) s = calcRoots (env_for E x) v depth (rect_of x) s).
    { rewrite !env_for_cached. apply (cached_search free (rect_of x)); [exact F|exact P|].
      unfold worker_output, argument_algorithm in U. rewrite env_for_cached in U.
      destruct (calcRoots (cached_env line _ _ _ _ _ _ _) v depth (rect_of x) s) as [[s' l] o].
      destruct U as [U|[U1 U2]]; [left; exact U|right]. cbn [ar_end ar_reports fst snd] in *.
      rewrite map_map in U2. cbn [snd] in U2. rewrite map_id in U2. split; [exact U2|].
      destruct o as [[]|e|]; try discriminate. exists tt. reflexivity. }
    unfold worker_output, argument_algorithm, job_leaves. rewrite K. split; reflexivity.
  Qed.

  Lemma chunk_same c : forall s,
    (forall x, In x c -> proper (rect_of x) /\ follows free (rect_of x) line line') ->
    (free \/ good_task (run_chunk E v depth s c)) -> run_chunk E' v depth s c = run_chunk E v depth s c.
  Proof.
    induction c as [|x c IH]; intros s H U; [reflexivity|]. cbn [run_chunk] in *.
    destruct (H x (or_introl eq_refl)) as [P F].
    assert (U1 : free \/ good_task (worker_output E v depth s x)).
    { destruct U as [U|U]; [left; exact U|right]. destruct U as [U1 U2].
      destruct (snd (worker_output E v depth s x)) eqn:W; [cbn [snd] in U1; discriminate|].
      split; [exact W|]. intros z Hz. apply (U2 z). cbn [fst]. apply in_or_app. left. exact Hz. }
    destruct (job_same x s P F U1) as [-> ->].
    destruct (snd (worker_output E v depth s x)) eqn:W; [reflexivity|]. cbv zeta.
    rewrite (IH (job_leaves E v depth x s)); [reflexivity|intros y Hy; apply H; right; exact Hy|].
    destruct U as [U|[U2 U3]]; [left; exact U|right]. cbn [fst snd] in *. split; [exact U2|].
    intros z Hz. apply (U3 z). apply in_or_app. right. exact Hz.
  Qed.

  Lemma pool_same s m x : (1 <= m)%nat ->
    (forall j, In j (createRootJobs m x) -> proper (rect_of j) /\ follows free (rect_of j) line line') ->
    (free \/ (forall o, In o (pool_outputs E v depth s m x) -> good_task o)) ->
    pool_outputs E' v depth s m x = pool_outputs E v depth s m x.
  Proof.
    intros Hm H U. unfold pool_outputs in *. apply map_ext_in. intros c Hc. apply chunk_same.
    - intros j Hj. apply H. rewrite <- (get_tasks_concat m (createRootJobs m x) Hm). apply in_concat. exists c. split; assumption.
    - destruct U as [U|U]; [left; exact U|right]. apply U, in_map, Hc.
  Qed.
End Pool.

Lemma job_near fH dfH dflt reRan imRan prec m job : (1 <= m)%nat ->
  In job (createRootJobs m (serial_context fH dfH dflt reRan imRan prec)) ->
  proper (rect_of job) /\
  (forall z, inside (rect_of job) z -> near_request reRan imRan (one_more (decimals dflt prec)) z) /\
  (forall z, (x1 (rect_of job) <= re z)%Q -> (y1 (rect_of job) <= im z)%Q ->
     seen True (rect_of (serial_context fH dfH dflt reRan imRan prec)) z).
Proof.
  intros Hm H. destruct (job_inside 1 m fH dfH dflt reRan imRan prec 0 0 Hm (Nat.lt_0_succ 0) job H) as ((S1 & S2 & S3 & S4) & Hp & _).
  destruct (context_proper fH dfH dflt reRan imRan prec) as [_ N].
  split; [exact Hp|]. split.
  - intros z [[A B] [C D]]. apply N. unfold inside. Lqa.lra.
  - intros z A B. split; [split; Lqa.lra|left; exact Logic.I].
Qed.

Section Searches.
  Context (turns : R -> Q) (debug : bool) (precision : Z * Z) (fuel : nat)
    (secant : cplx -> cplx -> res cplx) (newton : cplx -> res cplx) (polyroots : list cplx -> res (list cplx))
    (has_df progress : bool) (v : variant) (depth m : nat).
  Hypothesis Hm : (1 <= m)%nat.
  Variables (fH : holoFunc) (dfH : option holoFunc) (dflt : Z * Z) (reRan imRan : Q * Q) (prec : option (Z * Z)).
  Notation x := (serial_context fH dfH dflt reRan imRan prec).
  Notation near := (near_request reRan imRan (one_more (decimals dflt prec))).
  Notation beyond z := ((Qmin (fst reRan) (snd reRan) - pow10 (- fst (one_more (decimals dflt prec))) <= re z)%Q /\
             (Qmin (fst imRan) (snd imRan) - 3 * pow10 (- snd (one_more (decimals dflt prec))) <= im z)%Q).

  Section Summation.
    Variables (deltaPhi : R) (maxPrecision : Q) (n : nat) (s : ecache * sum_state R).
    Notation sums f := (pool_outputs (sum_env turns f deltaPhi maxPrecision n precision fuel debug secant newton polyroots has_df progress) v depth s m x).

    Lemma sums_domain (f g : cplx -> cR) : (forall z, near z -> f z = g z) -> (forall o, In o (sums f) -> good_task o) -> sums g = sums f.
    Proof.
      intros H U. unfold sum_env in *. apply (pool_same False); [exact Hm| |right; exact U].
      intros j Hj. destruct (job_near _ _ _ _ _ _ _ _ Hm Hj) as (P & N & _). split; [exact P|].
      apply turn_line_local. intros z Hz. apply H, N, seen_in, Hz.
    Qed.

    Lemma sums_beyond (f g : cplx -> cR) : (forall z, beyond z -> f z = g z) -> sums g = sums f.
    Proof.
      intros H. unfold sum_env in *. apply (pool_same True); [exact Hm| |left; exact Logic.I].
      intros j Hj. destruct (job_near _ _ _ _ _ _ _ _ Hm Hj) as (P & _ & N). split; [exact P|].
      apply turn_line_local. intros z [[A B] _]. apply H. apply (context_seen fH dfH dflt reRan imRan prec), N; assumption.
    Qed.

    Lemma sums_scaled (f g : cplx -> cR) c k : c <> (0, 0)%R ->
      (forall z, near z -> (0 < k z)%R /\ g z = times c (stretched (k z) (f z))) -> (forall o, In o (sums f) -> good_task o) -> sums g = sums f.
    Proof.
      intros C H U. unfold sum_env in *. apply (pool_same False); [exact Hm| |right; exact U].
      intros j Hj. destruct (job_near _ _ _ _ _ _ _ _ Hm Hj) as (P & N & _). split; [exact P|].
      apply (turn_line_scaled False _ turns f g deltaPhi maxPrecision n precision fuel c k C). intros z Hz. apply H, N, seen_in, Hz.
    Qed.

    Lemma sums_scaled_everywhere (f g : cplx -> cR) c k : c <> (0, 0)%R -> (forall z, (0 < k z)%R) ->
      (forall z, g z = times c (stretched (k z) (f z))) -> sums g = sums f.
    Proof.
      intros C K H. unfold sum_env in *. apply (pool_same True); [exact Hm| |left; exact Logic.I].
      intros j Hj. destruct (job_near _ _ _ _ _ _ _ _ Hm Hj) as (P & _ & _). split; [exact P|].
      apply (turn_line_scaled True _ turns f g deltaPhi maxPrecision n precision fuel c k C). intros z _. auto.
    Qed.
  End Summation.

  Section Quadrature.
    Variables (romb : list R -> R -> R) (s : ecache * unit).
    Notation quads f df := (pool_outputs (quad_env turns romb f df precision fuel debug secant newton polyroots has_df progress) v depth s m x).

    Lemma quads_domain (f g df dg : cplx -> R * R) : (forall z, near z -> f z = g z /\ df z = dg z) ->
      (forall o, In o (quads f (Some df)) -> good_task o) -> quads g (Some dg) = quads f (Some df).
    Proof.
      intros H U. unfold quad_env in *. apply (pool_same False); [exact Hm| |right; exact U].
      intros j Hj. destruct (job_near _ _ _ _ _ _ _ _ Hm Hj) as (P & N & _). split; [exact P|].
      apply quad_turn_line_local; [|cbn [both]]; intros z Hz; apply H, N, seen_in, Hz.
    Qed.

    Lemma quads_beyond (f g df dg : cplx -> R * R) : (forall z, beyond z -> f z = g z /\ df z = dg z) ->
      quads g (Some dg) = quads f (Some df).
    Proof.
      intros H. unfold quad_env in *. apply (pool_same True); [exact Hm| |left; exact Logic.I].
      intros j Hj. destruct (job_near _ _ _ _ _ _ _ _ Hm Hj) as (P & _ & N). split; [exact P|].
      apply quad_turn_line_local; [|cbn [both]]; intros z [[A B] _]; apply H; apply (context_seen fH dfH dflt reRan imRan prec), N; assumption.
    Qed.

    Lemma quads_scaled (f g df dg : cplx -> R * R) c : c <> (0, 0)%R ->
      (forall z, g z = times c (f z)) -> (forall z, dg z = times c (df z)) ->
      quads g (Some dg) = quads f (Some df).
    Proof.
      intros C H D. unfold quad_env in *. apply (pool_same True); [exact Hm| |left; exact Logic.I].
      intros j Hj. destruct (job_near _ _ _ _ _ _ _ _ Hm Hj) as (P & _ & _). split; [exact P|].
      apply (quad_line_scaled True _ turns romb f g (Some df) (Some dg) precision fuel c C); [auto|]. cbn [both]. auto.
    Qed.
  End Quadrature.
End Searches.

(** A constant function on one processor: one task, nothing reported. *)
Lemma constant_task turns deltaPhi maxPrecision secant newton polyroots fH :
  (0 < deltaPhi)%R -> turns 0%R = 0%Q ->
  pool_outputs (sum_env turns (fun _ => (1, 0)%R) deltaPhi maxPrecision 2 (0, 0) 1 false secant newton polyroots true true)
    Simple 1 new_estimator 1 (serial_context fH None (0, 0) (1, 2)%Q (1, 2)%Q None) = [([], None)].
Proof.
  intros Hd Ht.
  set (x := serial_context fH None (0, 0) (1, 2)%Q (1, 2)%Q None).
  assert (J : createRootJobs 1 x = [hd x (createRootJobs 1 x)]) by reflexivity.
  unfold pool_outputs. rewrite J. set (j := hd x (createRootJobs 1 x)).
  change (get_tasks 1 [j]) with [[j]]. cbn [map run_chunk].
  assert (K : exists s' m, cached_moment (turn_line turns (fun _ => (1, 0)%R) deltaPhi maxPrecision 2 (0, 0) 1) false 0 (rect_of j)
      new_estimator = (s', [], Ok m) /\ (re m == 0)%Q).
  { assert (L : forall x y s, (0 <= re x)%Q -> (0 <= im x)%Q -> (0 <= re y)%Q -> (0 <= im y)%Q ->
      turn_line turns (fun _ => (1, 0)%R) deltaPhi maxPrecision 2 (0, 0) 1 0 x y s =
      match sumLine 0%R Rplus Ropp (fun _ => false) (fun _ _ => 0%R) (fun _ => false) (refinement deltaPhi) (nearer maxPrecision) 2 (0, 0) 1 0 x y s with
      | (st', SumOk found p) => (st', found, Ok (turns p, 0%Q))
      | (st', SumErr e) => (st', [], Err e)
      | (st', SumLoops) => (st', [], Err RuntimeError)
      end).
    { intros a b s H1 H2 H3 H4. unfold turn_line. change (fun _ : cplx => (1, 0)%R) with (bitfun (fun _ => false)).
      rewrite bit_line by assumption. reflexivity. }
    assert (T1 : turns (0 + 0)%R = 0%Q) by (rewrite Rplus_0_l; exact Ht).
    assert (T2 : turns (- (0 + 0))%R = 0%Q) by (rewrite Rplus_0_l, Ropp_0; exact Ht).
    set (line := turn_line turns (fun _ => (1, 0)%R) deltaPhi maxPrecision 2 (0, 0) 1) in *. clearbody line.
    let r := eval vm_compute in (rect_of j) in change (rect_of j) with r.
    unfold cached_moment, edges, new_estimator. cbn [x1 x2 y1 y2].
    line_step L T1 T2. line_step L T1 T2. line_step L T1 T2. line_step L T1 T2.
    cbn [moment_loop app]. eexists. eexists. split; reflexivity. }
  destruct K as (s' & m & K & Hm).
  assert (R : exists s'' l, calcRoots (env_for (sum_env turns (fun _ => (1, 0)%R) deltaPhi maxPrecision 2 (0, 0) 1 false secant newton polyroots true true) j)
    Simple 1 (rect_of j) new_estimator = (s'', l, Done tt) /\ roots_of l = []).
  { unfold sum_env. rewrite env_for_cached. unfold calcRoots. cbn [e_dirty e_reset cached_env].
    change (ec_dirty (fst new_estimator)) with false. cbv iota.
    unfold mbind, calcMoment. cbn [e_est cached_env]. rewrite K.
    assert (Q : Qltb (re m) TWO_PI = true) by (apply Qltb_true; rewrite Hm; reflexivity).
    cbn [decideRefinement]; unfold decide_simple; rewrite Q; unfold mseq, mbind, emit, advance; cbn [e_progress].
    eexists; eexists; split; reflexivity. }
  destruct R as (s'' & l & R & RL).
  assert (W : worker_output (sum_env turns (fun _ => (1, 0)%R) deltaPhi maxPrecision 2 (0, 0) 1 false secant newton polyroots true true) Simple 1 new_estimator j = ([], None)).
  { unfold worker_output, argument_algorithm. rewrite R. cbn [ar_reports ar_end]. rewrite RL. reflexivity. }
  rewrite W. reflexivity.
Qed.
