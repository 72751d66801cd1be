(** * Property C74: whole searches with the quadrature estimator

    [F]: the function searched, [DF]: its derivative; [turns]: conversion of angles to turns,
    rounding included; integration by Romberg's rule.  [s0] (and [st job]): whatever earlier
    searches left in the estimator. *)
From Coq Require Import Reals Qreals Qminmax.
From Verif Require Import PyBase Rounding_Model Container_Model Container_Spec Finder_Model Finder_Spec
  Refine_Model Refine_Spec Zeros_Spec Cache_Model Sum_Model Sum_Spec Quad_Model Quad_Spec Arg_Spec Moment_Spec
  EndToEnd_Model EndToEnd_Spec EndToEnd_Examples Whole_Examples Qsearch_Model Qsearch_Spec Qsearch_Proofs2 Qsearch_Examples.
Open Scope R_scope.

(** A search either raises RecursionError (recursion limit) or finds exactly the zeros. *)
Theorem C74_serial :
  forall F DF zeros turns eps eprec fuel debug secant newton polyroots has_df progress,
  converts turns eps -> eps <= 1 / 25 -> (2 <= fuel)%nat ->
  forall depth info s0 f df dflt reRan imRan prec p sp iter,
  let E := quad_env turns romberg (called F) (Some (called DF)) eprec fuel debug secant newton polyroots has_df progress in
  let P := search_precision dflt prec in
  let r := rect_of (serial_context f df dflt reRan imRan prec) in
  let out := calculateRoots f df dflt (argument_algorithm E Simple depth info s0) reRan imRan prec (rc_init p sp) in
  iteration_order iter -> quad_resolved F DF zeros P r ->
  snd out = Err RecursionError \/
  (snd out = Ok tt /\
   let pairs := reported_pairs iter (fst out) in
   all_found 1 P zeros reRan imRan pairs /\
   all_genuine 1 P P zeros reRan imRan pairs /\
   (separated 1 P zeros -> orders_right 1 P P zeros reRan imRan pairs) /\
   (separated 2 P zeros -> exactly_once 1 P zeros reRan imRan pairs)).
Proof. exact C74_serial_lemma. Qed.
Print Assumptions C74_serial.

(** With enough recursion depth it succeeds. *)
Theorem C74_complete :
  forall F DF zeros turns eps eprec fuel debug secant newton polyroots has_df progress,
  converts turns eps -> eps <= 1 / 25 -> (2 <= fuel)%nat ->
  forall depth info s0 f df dflt reRan imRan prec p sp iter a b,
  let E := quad_env turns romberg (called F) (Some (called DF)) eprec fuel debug secant newton polyroots has_df progress in
  let P := search_precision dflt prec in
  let r := rect_of (serial_context f df dflt reRan imRan prec) in
  let out := calculateRoots f df dflt (argument_algorithm E Simple depth info s0) reRan imRan prec (rc_init p sp) in
  iteration_order iter -> quad_resolved F DF zeros P r ->
  halvings (Qabs (fst reRan - snd reRan) + 3 * pow10 (- fst P)) (fst P) a ->
  halvings (Qabs (fst imRan - snd imRan) + 7 * pow10 (- snd P)) (snd P) b ->
  (a + b < depth)%nat ->
  snd out = Ok tt /\
  let pairs := reported_pairs iter (fst out) in
  all_found 1 P zeros reRan imRan pairs /\
  all_genuine 1 P P zeros reRan imRan pairs /\
  (separated 1 P zeros -> orders_right 1 P P zeros reRan imRan pairs) /\
  (separated 2 P zeros -> exactly_once 1 P zeros reRan imRan pairs).
Proof. exact C74_complete_lemma. Qed.
Print Assumptions C74_complete.

(** The parallel finder, [m * m] jobs, in any schedule, also if jobs share an estimator. *)
Theorem C74_parallel :
  forall F DF zeros turns eps eprec fuel debug secant newton polyroots has_df progress,
  converts turns eps -> eps <= 1 / 25 -> (2 <= fuel)%nat ->
  forall m depth (st : rctx -> ecache * unit) f df dflt reRan imRan prec p sp iter,
  let E := quad_env turns romberg (called F) (Some (called DF)) eprec fuel debug secant newton polyroots has_df progress in
  let P := search_precision dflt prec in
  let P' := match prec with Some q => q | None => dflt end in
  let jobs := createRootJobs m (serial_context f df dflt reRan imRan prec) in
  let outs := map (fun job => worker_output E Simple depth (st job) job) jobs in
  (1 <= m)%nat -> iteration_order iter ->
  (forall job, In job jobs -> quad_resolved F DF zeros P (rect_of job)) ->
  forall e info, pool_behaviour outs e ->
    let out := parallel_calculateRoots f dflt reRan imRan prec info e (rc_init p sp) in
    (forall x', e = PoolRaised x' -> snd out = Err RecursionError) /\
    (forall q, e = PoolDone q ->
       snd out = Ok tt /\
       let pairs := reported_pairs iter (fst out) in
       all_found (11 / 20) P' zeros reRan imRan pairs /\
       all_genuine (11 / 20) P' P zeros reRan imRan pairs /\
       (separated 1 P zeros -> orders_right (11 / 20) P' P zeros reRan imRan pairs) /\
       (separated (11 / 10) P' zeros -> exactly_once (11 / 20) P' zeros reRan imRan pairs)).
Proof. exact C74_parallel_lemma. Qed.
Print Assumptions C74_parallel.

Theorem C74_parallel_complete :
  forall F DF zeros turns eps eprec fuel debug secant newton polyroots has_df progress,
  converts turns eps -> eps <= 1 / 25 -> (2 <= fuel)%nat ->
  forall m depth (st : rctx -> ecache * unit) f df dflt reRan imRan prec p sp iter,
  let E := quad_env turns romberg (called F) (Some (called DF)) eprec fuel debug secant newton polyroots has_df progress in
  let P := search_precision dflt prec in
  let P' := match prec with Some q => q | None => dflt end in
  let jobs := createRootJobs m (serial_context f df dflt reRan imRan prec) in
  let outs := map (fun job => worker_output E Simple depth (st job) job) jobs in
  (1 <= m)%nat -> iteration_order iter ->
  (forall job, In job jobs -> quad_resolved F DF zeros P (rect_of job)) ->
  forall a b e info,
  halvings (Qabs (fst reRan - snd reRan) + 3 * pow10 (- fst P)) (fst P) a ->
  halvings (Qabs (fst imRan - snd imRan) + 7 * pow10 (- snd P)) (snd P) b ->
  (a + b < depth)%nat -> pool_behaviour outs e ->
  (forall x', e <> PoolRaised x') /\
  let out := parallel_calculateRoots f dflt reRan imRan prec info e (rc_init p sp) in
  snd out = Ok tt /\
  let pairs := reported_pairs iter (fst out) in
  all_genuine (11 / 20) P' P zeros reRan imRan pairs /\
  (separated 1 P zeros -> orders_right (11 / 20) P' P zeros reRan imRan pairs) /\
  (forall q, e = PoolDone q ->
     all_found (11 / 20) P' zeros reRan imRan pairs /\
     (separated (11 / 10) P' zeros -> exactly_once (11 / 20) P' zeros reRan imRan pairs)).
Proof. exact C74_parallel_complete_lemma. Qed.
Print Assumptions C74_parallel_complete.

(** The hypothesis on the integration, for polynomials: no zero comes closer to a side of a
    cell than [k] times the longer side of it, and there are fewer than 524 k^3 zeros. *)
Theorem C74_polynomial :
  forall lead zeros P r k,
  lead <> (0, 0) -> (x1 r < x2 r)%Q -> (y1 r < y2 r)%Q -> 0 < k -> well_inside k zeros P r ->
  INR (List.length zeros) / (k ^ 3 * 4 ^ 10) < 1 / 2000 ->
  quad_resolved (fun p => times lead (product_of zeros p)) (fun p => times lead (derivative_of zeros p)) zeros P r.
Proof. exact C74_polynomial_lemma. Qed.
Print Assumptions C74_polynomial.

(** All hypotheses are met by a search for a double zero at (1 + i) / 30, and it finds it,
    once, with order 2, whatever the estimator was used for before. *)
Example C74_nonvacuous : forall fuel depth debug s0 iter,
  (2 <= fuel)%nat -> (8 < depth)%nat -> iteration_order iter ->
  converts odd_turns (1 / 2000) /\
  well_inside (1 / 6) pair30 (1, 1)%Z (rect_of small_x) /\
  quad_resolved pair_f pair_df pair30 (1, 1)%Z (rect_of small_x) /\
  let E := quad_env odd_turns romberg (called pair_f) (Some (called pair_df)) (1, 1)%Z fuel debug
    (fun _ _ => Err RuntimeError) (fun _ => Err RuntimeError) (fun _ => Err RuntimeError) true false in
  let out := calculateRoots demo_f None (0, 0)%Z (argument_algorithm E Simple depth (fun _ => true) s0)
    (0, 1 # 10)%Q (0, 1 # 10)%Q None (rc_init None (3, 3)%Z) in
  snd out = Ok tt /\
  exists c, In (c, 2%Z) (reported_pairs iter (fst out)) /\ within 1 (1, 1)%Z c (1 / 30, 1 / 30) /\
    forall c' k', In (c', k') (reported_pairs iter (fst out)) -> (c', k') = (c, 2%Z).
Proof.
  exact (fun fuel depth debug s0 iter H1 H2 H3 =>
    conj odd_converts (conj pair_inside (conj pair_resolved (pair_search fuel depth debug s0 iter H1 H2 H3)))).
Qed.
