(** * Property C75: whole searches of the Newton-assisted algorithm

    [secant], [newton]: the two iterations, as oracles; [df]: the derivative, if given.
    First for any estimator that counts the zeros of each cell correctly ([reliable]), then
    for the two estimators of the project as in C70 and C74. *)
From Coq Require Import Reals Qreals Qminmax.
From Verif Require Import PyBase Rounding_Model Container_Model Container_Spec Finder_Model Finder_Spec
  Refine_Model Refine_Spec Zeros_Spec Cache_Model Sum_Model Sum_Spec Quad_Model Quad_Spec Arg_Spec Moment_Spec
  EndToEnd_Model EndToEnd_Spec Refine_Examples EndToEnd_Examples Whole_Model Whole_Spec Whole_Examples Qsearch_Model Qsearch_Spec Qsearch_Examples
  Assist_Spec Assist_Proofs3 Assist_Proofs4 Assist_Examples Chunk_Model Chunk_Spec Chunk_Proofs2 Chunk_Examples.
Open Scope R_scope.

(** A search raises RecursionError, or finds the zeros and nothing else, with their
    orders; each is reported once if no derivative is given. *)
Theorem C75_serial :
  forall S (E : env S) zeros depth info s f df dflt reRan imRan prec p sp iter,
  let P := search_precision dflt prec in
  let r := rect_of (serial_context f df dflt reRan imRan prec) in
  let out := calculateRoots f df dflt (argument_algorithm E NewtonV depth info s) reRan imRan prec (rc_init p sp) in
  iteration_order iter -> reliable E zeros P r -> converging (e_secant E) (e_newton E) df zeros P r ->
  snd out = Err RecursionError \/ 
  (snd out = Ok tt /\
   let pairs := reported_pairs iter (fst out) in
   all_found 1 P zeros reRan imRan pairs /\
   all_genuine 1 P P zeros reRan imRan pairs /\
   (separated 1 P zeros -> orders_right 1 P P zeros reRan imRan pairs) /\
   (df = None -> separated 2 P zeros -> exactly_once 1 P zeros reRan imRan pairs)).
Proof. exact (fun S E zeros depth info s f df dflt reRan imRan prec p sp iter HI => C75_serial_lemma E zeros depth f df dflt reRan imRan prec p sp iter HI info s). Qed.
Print Assumptions C75_serial.

(** With enough recursion depth it succeeds. *)
Theorem C75_complete :
  forall S (E : env S) zeros depth info s f df dflt reRan imRan prec p sp iter a b,
  let P := search_precision dflt prec in
  let r := rect_of (serial_context f df dflt reRan imRan prec) in
  let out := calculateRoots f df dflt (argument_algorithm E NewtonV depth info s) reRan imRan prec (rc_init p sp) in
  iteration_order iter -> reliable E zeros P r -> converging (e_secant E) (e_newton E) df zeros P r ->
  halvings (Qabs (fst reRan - snd reRan) + 3 * pow10 (- fst P)) (fst P) a ->
  halvings (Qabs (fst imRan - snd imRan) + 7 * pow10 (- snd P)) (snd P) b ->
  (a + b < depth)%nat ->
  (snd out = Ok tt /\
   let pairs := reported_pairs iter (fst out) in
   all_found 1 P zeros reRan imRan pairs /\
   all_genuine 1 P P zeros reRan imRan pairs /\
   (separated 1 P zeros -> orders_right 1 P P zeros reRan imRan pairs) /\
   (df = None -> separated 2 P zeros -> exactly_once 1 P zeros reRan imRan pairs)).
Proof. exact (fun S E zeros depth info s f df dflt reRan imRan prec p sp iter a b HI => C75_complete_lemma E zeros depth f df dflt reRan imRan prec p sp iter HI info s a b). Qed.
Print Assumptions C75_complete.

(** The parallel finder, [m * m] jobs, in any schedule. *)
Theorem C75_parallel :
  forall S (E : env S) zeros m depth (st : rctx -> S) f df dflt reRan imRan prec p sp iter,
  let P := search_precision dflt prec in
  let P' := match prec with Some q => q | None => dflt end in
  let jobs := createRootJobs m (serial_context f df dflt reRan imRan prec) in
  let outs := map (fun job => worker_output E NewtonV depth (st job) job) jobs in
  (1 <= m)%nat -> iteration_order iter ->
  (forall job, In job jobs -> reliable E zeros P (rect_of job) /\ converging (e_secant E) (e_newton E) df zeros P (rect_of job)) ->
  forall e info, pool_behaviour outs e ->
    let out := parallel_calculateRoots f dflt reRan imRan prec info e (rc_init p sp) in
    (forall x', e = PoolRaised x' -> snd out = Err RecursionError) /\
    (forall q, e = PoolDone q ->
       snd out = Ok tt /\
       let pairs := reported_pairs iter (fst out) in
       all_found (11 / 20) P' zeros reRan imRan pairs /\
       all_genuine (11 / 20) P' P zeros reRan imRan pairs /\
       (separated 1 P zeros -> orders_right (11 / 20) P' P zeros reRan imRan pairs) /\
       (df = None -> separated (11 / 10) P' zeros -> exactly_once (11 / 20) P' zeros reRan imRan pairs)).
Proof. exact (fun S E zeros m depth st f df dflt reRan imRan prec p sp iter Hm HI HR => C75_parallel_lemma E zeros depth f df dflt reRan imRan prec p sp iter HI m st Hm HR). Qed.
Print Assumptions C75_parallel.

Theorem C75_parallel_complete :
  forall S (E : env S) zeros m depth (st : rctx -> S) f df dflt reRan imRan prec p sp iter,
  let P := search_precision dflt prec in
  let P' := match prec with Some q => q | None => dflt end in
  let jobs := createRootJobs m (serial_context f df dflt reRan imRan prec) in
  let outs := map (fun job => worker_output E NewtonV depth (st job) job) jobs in
  (1 <= m)%nat -> iteration_order iter ->
  (forall job, In job jobs -> reliable E zeros P (rect_of job) /\ converging (e_secant E) (e_newton E) df zeros P (rect_of job)) ->
  forall a b e info,
  halvings (Qabs (fst reRan - snd reRan) + 3 * pow10 (- fst P)) (fst P) a ->
  halvings (Qabs (fst imRan - snd imRan) + 7 * pow10 (- snd P)) (snd P) b ->
  (a + b < depth)%nat -> pool_behaviour outs e ->
  (forall x', e <> PoolRaised x') /\
  let out := parallel_calculateRoots f dflt reRan imRan prec info e (rc_init p sp) in
  snd out = Ok tt /\
  let pairs := reported_pairs iter (fst out) in
  all_genuine (11 / 20) P' P zeros reRan imRan pairs /\
  (separated 1 P zeros -> orders_right (11 / 20) P' P zeros reRan imRan pairs) /\
  (forall q, e = PoolDone q ->
     all_found (11 / 20) P' zeros reRan imRan pairs /\
     (df = None -> separated (11 / 10) P' zeros -> exactly_once (11 / 20) P' zeros reRan imRan pairs)).
Proof. exact (fun S E zeros m depth st f df dflt reRan imRan prec p sp iter Hm HI HR => C75_parallel_complete_lemma E zeros depth f df dflt reRan imRan prec p sp iter HI m st Hm HR). Qed.
Print Assumptions C75_parallel_complete.

(** ** With the summation estimator (parallel: every job has an estimator of its own, as in C70) *)
Theorem C75_summation_serial :
  forall g zeros turns eps delta mp n eprec fuel debug secant newton polyroots has_df progress,
  0 < delta -> (2 <= n)%nat -> (100 * n + 3 <= fuel)%nat -> faithful turns eps ->
  forall depth info f df dflt reRan imRan prec p sp iter,
  let E := sum_env turns g delta mp n eprec fuel debug secant newton polyroots has_df progress in
  let P := search_precision dflt prec in
  let r := rect_of (serial_context f df dflt reRan imRan prec) in
  let out := calculateRoots f df dflt (argument_algorithm E NewtonV depth info new_estimator) reRan imRan prec (rc_init p sp) in
  iteration_order iter -> resolved g zeros n eps P r -> converging secant newton df zeros P r ->
  snd out = Err RecursionError \/ (snd out = Err IndexError /\ ~ dense n P r) \/
  (snd out = Ok tt /\
   let pairs := reported_pairs iter (fst out) in
   all_found 1 P zeros reRan imRan pairs /\
   all_genuine 1 P P zeros reRan imRan pairs /\
   (separated 1 P zeros -> orders_right 1 P P zeros reRan imRan pairs) /\
   (df = None -> separated 2 P zeros -> exactly_once 1 P zeros reRan imRan pairs)).
Proof. exact (fun g zeros turns eps delta mp n eprec fuel debug secant newton polyroots has_df progress H1 H2 H3 H4 depth info f df dflt reRan imRan prec p sp iter HI => C75_sum_serial_lemma zeros turns eps eprec fuel debug secant newton polyroots has_df progress depth f df dflt reRan imRan prec p sp iter HI g delta mp n H1 H2 H3 H4 info). Qed.
Print Assumptions C75_summation_serial.

Theorem C75_summation_complete :
  forall g zeros turns eps delta mp n eprec fuel debug secant newton polyroots has_df progress,
  0 < delta -> (2 <= n)%nat -> (100 * n + 3 <= fuel)%nat -> faithful turns eps ->
  forall depth info f df dflt reRan imRan prec p sp iter a b,
  let E := sum_env turns g delta mp n eprec fuel debug secant newton polyroots has_df progress in
  let P := search_precision dflt prec in
  let r := rect_of (serial_context f df dflt reRan imRan prec) in
  let out := calculateRoots f df dflt (argument_algorithm E NewtonV depth info new_estimator) reRan imRan prec (rc_init p sp) in
  iteration_order iter -> resolved g zeros n eps P r -> dense n P r -> converging secant newton df zeros P r ->
  halvings (Qabs (fst reRan - snd reRan) + 3 * pow10 (- fst P)) (fst P) a ->
  halvings (Qabs (fst imRan - snd imRan) + 7 * pow10 (- snd P)) (snd P) b ->
  (a + b < depth)%nat ->
  (snd out = Ok tt /\
   let pairs := reported_pairs iter (fst out) in
   all_found 1 P zeros reRan imRan pairs /\
   all_genuine 1 P P zeros reRan imRan pairs /\
   (separated 1 P zeros -> orders_right 1 P P zeros reRan imRan pairs) /\
   (df = None -> separated 2 P zeros -> exactly_once 1 P zeros reRan imRan pairs)).
Proof. exact (fun g zeros turns eps delta mp n eprec fuel debug secant newton polyroots has_df progress H1 H2 H3 H4 depth info f df dflt reRan imRan prec p sp iter a b HI => C75_sum_complete_lemma zeros turns eps eprec fuel debug secant newton polyroots has_df progress depth f df dflt reRan imRan prec p sp iter HI g delta mp n H1 H2 H3 H4 info a b). Qed.
Print Assumptions C75_summation_complete.

Theorem C75_summation_parallel :
  forall g zeros turns eps delta mp n eprec fuel debug secant newton polyroots has_df progress,
  0 < delta -> (2 <= n)%nat -> (100 * n + 3 <= fuel)%nat -> faithful turns eps ->
  forall m depth f df dflt reRan imRan prec p sp iter,
  let E := sum_env turns g delta mp n eprec fuel debug secant newton polyroots has_df progress in
  let P := search_precision dflt prec in
  let P' := match prec with Some q => q | None => dflt end in
  let x := serial_context f df dflt reRan imRan prec in
  let jobs := createRootJobs m x in
  let outs := pool_outputs E NewtonV depth new_estimator m x in
  (1 <= m)%nat -> iteration_order iter ->
  resolved_pieces g zeros n eps P (rect_of x) jobs ->
  (forall job, In job jobs -> (y2 (rect_of job) < y2 (rect_of x))%Q -> upper_side_whole zeros P (rect_of job)) ->
  (forall job, In job jobs -> converging secant newton df zeros P (rect_of job)) ->
  forall e info, pool_behaviour outs e ->
    let out := parallel_calculateRoots f dflt reRan imRan prec info e (rc_init p sp) in
    (forall x', e = PoolRaised x' ->
       snd out = Err RecursionError \/
       (snd out = Err IndexError /\ exists job, In job jobs /\ ~ dense n P (rect_of job))) /\
    (forall q, e = PoolDone q ->
       snd out = Ok tt /\
       let pairs := reported_pairs iter (fst out) in
       all_found (11 / 20) P' zeros reRan imRan pairs /\
       all_genuine (11 / 20) P' P zeros reRan imRan pairs /\
       (separated 1 P zeros -> orders_right (11 / 20) P' P zeros reRan imRan pairs) /\
       (df = None -> separated (11 / 10) P' zeros -> exactly_once (11 / 20) P' zeros reRan imRan pairs)).
Proof. exact C75_sum_parallel_lemma. Qed.
Print Assumptions C75_summation_parallel.

Theorem C75_summation_parallel_complete :
  forall g zeros turns eps delta mp n eprec fuel debug secant newton polyroots has_df progress,
  0 < delta -> (2 <= n)%nat -> (100 * n + 3 <= fuel)%nat -> faithful turns eps ->
  forall m depth f df dflt reRan imRan prec p sp iter,
  let E := sum_env turns g delta mp n eprec fuel debug secant newton polyroots has_df progress in
  let P := search_precision dflt prec in
  let P' := match prec with Some q => q | None => dflt end in
  let x := serial_context f df dflt reRan imRan prec in
  let jobs := createRootJobs m x in
  let outs := pool_outputs E NewtonV depth new_estimator m x in
  (1 <= m)%nat -> iteration_order iter ->
  resolved_pieces g zeros n eps P (rect_of x) jobs ->
  (forall job, In job jobs -> (y2 (rect_of job) < y2 (rect_of x))%Q -> upper_side_whole zeros P (rect_of job)) ->
  (forall job, In job jobs -> converging secant newton df zeros P (rect_of job)) ->
  forall a b e info,
  (forall job, In job jobs -> dense n P (rect_of job)) ->
  halvings (Qabs (fst reRan - snd reRan) + 3 * pow10 (- fst P)) (fst P) a ->
  halvings (Qabs (fst imRan - snd imRan) + 7 * pow10 (- snd P)) (snd P) b ->
  (a + b < depth)%nat -> pool_behaviour outs e ->
  (forall x', e <> PoolRaised x') /\
  let out := parallel_calculateRoots f dflt reRan imRan prec info e (rc_init p sp) in
  snd out = Ok tt /\
  let pairs := reported_pairs iter (fst out) in
  all_genuine (11 / 20) P' P zeros reRan imRan pairs /\
  (separated 1 P zeros -> orders_right (11 / 20) P' P zeros reRan imRan pairs) /\
  (forall q, e = PoolDone q ->
     all_found (11 / 20) P' zeros reRan imRan pairs /\
     (df = None -> separated (11 / 10) P' zeros -> exactly_once (11 / 20) P' zeros reRan imRan pairs)).
Proof. exact C75_sum_parallel_complete_lemma. Qed.
Print Assumptions C75_summation_parallel_complete.

(** ** With the quadrature estimator *)
Theorem C75_quadrature_serial :
  forall F DF zeros turns eps eprec fuel debug secant newton polyroots has_df progress,
  converts turns eps -> eps <= 1 / 25 -> (2 <= fuel)%nat ->
  forall depth info s0 f df dflt reRan imRan prec p sp iter,
  let E := quad_env turns romberg (called F) (Some (called DF)) eprec fuel debug secant newton polyroots has_df progress in
  let P := search_precision dflt prec in
  let r := rect_of (serial_context f df dflt reRan imRan prec) in
  let out := calculateRoots f df dflt (argument_algorithm E NewtonV depth info s0) reRan imRan prec (rc_init p sp) in
  iteration_order iter -> quad_resolved F DF zeros P r -> converging secant newton df zeros P r ->
  snd out = Err RecursionError \/ 
  (snd out = Ok tt /\
   let pairs := reported_pairs iter (fst out) in
   all_found 1 P zeros reRan imRan pairs /\
   all_genuine 1 P P zeros reRan imRan pairs /\
   (separated 1 P zeros -> orders_right 1 P P zeros reRan imRan pairs) /\
   (df = None -> separated 2 P zeros -> exactly_once 1 P zeros reRan imRan pairs)).
Proof. exact (fun F DF zeros turns eps eprec fuel debug secant newton polyroots has_df progress H1 H2 H3 depth info s0 f df dflt reRan imRan prec p sp iter HI => C75_quad_serial_lemma zeros turns eps eprec fuel debug secant newton polyroots has_df progress depth f df dflt reRan imRan prec p sp iter HI F DF H1 H2 H3 info s0). Qed.
Print Assumptions C75_quadrature_serial.

Theorem C75_quadrature_complete :
  forall F DF zeros turns eps eprec fuel debug secant newton polyroots has_df progress,
  converts turns eps -> eps <= 1 / 25 -> (2 <= fuel)%nat ->
  forall depth info s0 f df dflt reRan imRan prec p sp iter a b,
  let E := quad_env turns romberg (called F) (Some (called DF)) eprec fuel debug secant newton polyroots has_df progress in
  let P := search_precision dflt prec in
  let r := rect_of (serial_context f df dflt reRan imRan prec) in
  let out := calculateRoots f df dflt (argument_algorithm E NewtonV depth info s0) reRan imRan prec (rc_init p sp) in
  iteration_order iter -> quad_resolved F DF zeros P r -> converging secant newton df zeros P r ->
  halvings (Qabs (fst reRan - snd reRan) + 3 * pow10 (- fst P)) (fst P) a ->
  halvings (Qabs (fst imRan - snd imRan) + 7 * pow10 (- snd P)) (snd P) b ->
  (a + b < depth)%nat ->
  (snd out = Ok tt /\
   let pairs := reported_pairs iter (fst out) in
   all_found 1 P zeros reRan imRan pairs /\
   all_genuine 1 P P zeros reRan imRan pairs /\
   (separated 1 P zeros -> orders_right 1 P P zeros reRan imRan pairs) /\
   (df = None -> separated 2 P zeros -> exactly_once 1 P zeros reRan imRan pairs)).
Proof. exact (fun F DF zeros turns eps eprec fuel debug secant newton polyroots has_df progress H1 H2 H3 depth info s0 f df dflt reRan imRan prec p sp iter a b HI => C75_quad_complete_lemma zeros turns eps eprec fuel debug secant newton polyroots has_df progress depth f df dflt reRan imRan prec p sp iter HI F DF H1 H2 H3 info s0 a b). Qed.
Print Assumptions C75_quadrature_complete.

Theorem C75_quadrature_parallel :
  forall F DF zeros turns eps eprec fuel debug secant newton polyroots has_df progress,
  converts turns eps -> eps <= 1 / 25 -> (2 <= fuel)%nat ->
  forall m depth (st : rctx -> ecache * unit) f df dflt reRan imRan prec p sp iter,
  let E := quad_env turns romberg (called F) (Some (called DF)) eprec fuel debug secant newton polyroots has_df progress in
  let P := search_precision dflt prec in
  let P' := match prec with Some q => q | None => dflt end in
  let jobs := createRootJobs m (serial_context f df dflt reRan imRan prec) in
  let outs := map (fun job => worker_output E NewtonV depth (st job) job) jobs in
  (1 <= m)%nat -> iteration_order iter ->
  (forall job, In job jobs -> quad_resolved F DF zeros P (rect_of job) /\ converging secant newton df zeros P (rect_of job)) ->
  forall e info, pool_behaviour outs e ->
    let out := parallel_calculateRoots f dflt reRan imRan prec info e (rc_init p sp) in
    (forall x', e = PoolRaised x' -> snd out = Err RecursionError) /\
    (forall q, e = PoolDone q ->
       snd out = Ok tt /\
       let pairs := reported_pairs iter (fst out) in
       all_found (11 / 20) P' zeros reRan imRan pairs /\
       all_genuine (11 / 20) P' P zeros reRan imRan pairs /\
       (separated 1 P zeros -> orders_right (11 / 20) P' P zeros reRan imRan pairs) /\
       (df = None -> separated (11 / 10) P' zeros -> exactly_once (11 / 20) P' zeros reRan imRan pairs)).
Proof. exact (fun F DF zeros turns eps eprec fuel debug secant newton polyroots has_df progress H1 H2 H3 m depth st f df dflt reRan imRan prec p sp iter Hm HI HR => C75_quad_parallel_lemma zeros turns eps eprec fuel debug secant newton polyroots has_df progress depth f df dflt reRan imRan prec p sp iter HI F DF H1 H2 H3 m st Hm HR). Qed.
Print Assumptions C75_quadrature_parallel.

Theorem C75_quadrature_parallel_complete :
  forall F DF zeros turns eps eprec fuel debug secant newton polyroots has_df progress,
  converts turns eps -> eps <= 1 / 25 -> (2 <= fuel)%nat ->
  forall m depth (st : rctx -> ecache * unit) f df dflt reRan imRan prec p sp iter,
  let E := quad_env turns romberg (called F) (Some (called DF)) eprec fuel debug secant newton polyroots has_df progress in
  let P := search_precision dflt prec in
  let P' := match prec with Some q => q | None => dflt end in
  let jobs := createRootJobs m (serial_context f df dflt reRan imRan prec) in
  let outs := map (fun job => worker_output E NewtonV depth (st job) job) jobs in
  (1 <= m)%nat -> iteration_order iter ->
  (forall job, In job jobs -> quad_resolved F DF zeros P (rect_of job) /\ converging secant newton df zeros P (rect_of job)) ->
  forall a b e info,
  halvings (Qabs (fst reRan - snd reRan) + 3 * pow10 (- fst P)) (fst P) a ->
  halvings (Qabs (fst imRan - snd imRan) + 7 * pow10 (- snd P)) (snd P) b ->
  (a + b < depth)%nat -> pool_behaviour outs e ->
  (forall x', e <> PoolRaised x') /\
  let out := parallel_calculateRoots f dflt reRan imRan prec info e (rc_init p sp) in
  snd out = Ok tt /\
  let pairs := reported_pairs iter (fst out) in
  all_genuine (11 / 20) P' P zeros reRan imRan pairs /\
  (separated 1 P zeros -> orders_right (11 / 20) P' P zeros reRan imRan pairs) /\
  (forall q, e = PoolDone q ->
     all_found (11 / 20) P' zeros reRan imRan pairs /\
     (df = None -> separated (11 / 10) P' zeros -> exactly_once (11 / 20) P' zeros reRan imRan pairs)).
Proof. exact (fun F DF zeros turns eps eprec fuel debug secant newton polyroots has_df progress H1 H2 H3 m depth st f df dflt reRan imRan prec p sp iter Hm HI HR => C75_quad_parallel_complete_lemma zeros turns eps eprec fuel debug secant newton polyroots has_df progress depth f df dflt reRan imRan prec p sp iter HI F DF H1 H2 H3 m st Hm HR). Qed.
Print Assumptions C75_quadrature_parallel_complete.

(** With a derivative a zero can be reported twice: the two iterations both end within half
    of 10^-P of the zero, and are rounded apart. *)
Theorem C75_once_refuted :
  exists (E : env unit) zeros depth f df dflt reRan imRan,
  let P := search_precision dflt None in
  let r := rect_of (serial_context f df dflt reRan imRan None) in
  let out := calculateRoots f df dflt (argument_algorithm E NewtonV depth (fun _ => true) tt) reRan imRan None (rc_init None dflt) in
  reliable E zeros P r /\ converging (e_secant E) (e_newton E) df zeros P r /\ separated 2 P zeros /\ snd out = Ok tt /\
  exists z c1 c2, In z zeros /\ requested reRan imRan z /\ within 1 P c1 z /\ within 1 P c2 z /\ ~ (re c1 == re c2)%Q /\
    In (c1, 1%Z) (reported_pairs (fun l => l) (fst out)) /\ In (c2, 1%Z) (reported_pairs (fun l => l) (fst out)).
Proof. exact C75_once_refuted_lemma. Qed.
Print Assumptions C75_once_refuted.

(** The hypotheses are met: a double and a simple zero, the simple one found by iteration. *)
Example C75_nonvacuous :
  reliable (assist_env close_hit other_hit) demo_zeros (3, 3)%Z (rect_of (assist_x None)) /\
  converging (e_secant (assist_env close_hit other_hit)) (e_newton (assist_env close_hit other_hit)) None demo_zeros (3, 3)%Z (rect_of (assist_x None)) /\
  (halvings (Qabs (2 - 0) + 3 * pow10 (- 3)) 3 11 /\ halvings (Qabs (0 - 2) + 7 * pow10 (- 3)) 3 11) /\
  separated 2 (3, 3)%Z demo_zeros /\
  reported_pairs (fun l => l) (fst (assist_out None close_hit other_hit)) =
  [((333 # 1000)%Q, (167 # 500)%Q, 2%Z); ((1667 # 1000)%Q, (1333 # 1000)%Q, 1%Z)].
Proof.
  exact (conj (assist_reliable _ _ _ _ (assist_decimal None))
    (conj (assist_converging close_hit other_hit None _ (or_introl eq_refl) (or_intror eq_refl))
    (conj assist_halvings (conj assist_separated assist_output)))).
Qed.

(** The summation estimator, no derivative: a zero at (1 + i) / 300 is found, once. *)
Example C75_summation_nonvacuous : forall n fuel depth debug iter,
  (2001 <= Z.of_nat n)%Z -> (100 * n + 3 <= fuel)%nat -> (8 < depth)%nat -> iteration_order iter ->
  faithful odd_turns (1 / 2000) /\
  resolved (zero_product lone) lone n (1 / 2000) (2, 2)%Z (rect_of (lone_x None)) /\ dense n (2, 2)%Z (rect_of (lone_x None)) /\
  converging secant33 newton34 None lone (2, 2)%Z (rect_of (lone_x None)) /\
  let E := sum_env odd_turns (zero_product lone) (1 / 100) (1 # 10000000000) n (1, 1)%Z fuel debug
    secant33 newton34 (fun _ => Err RuntimeError) false false in
  let out := calculateRoots demo_f None (1, 1)%Z (argument_algorithm E NewtonV depth (fun _ => true) new_estimator)
    (0, 1 # 100)%Q (0, 1 # 100)%Q None (rc_init None (3, 3)%Z) in
  snd out = Ok tt /\
  exists c, In (c, 1%Z) (reported_pairs iter (fst out)) /\ within 1 (2, 2)%Z c (1 / 300, 1 / 300) /\
    forall c' k', In (c', k') (reported_pairs iter (fst out)) -> (c', k') = (c, 1%Z).
Proof.
  exact (fun n fuel depth debug iter H1 H2 H3 H4 => conj odd_turns_faithful (conj (lone_resolved n H1) (conj (lone_dense n H1)
    (conj (lone_converging None) (lone_sum_search n fuel depth debug iter H1 H2 H3 H4))))).
Qed.

(** The quadrature estimator, with a derivative: the zero is found, always with order 1. *)
Example C75_quadrature_nonvacuous : forall fuel depth debug s0 iter,
  (2 <= fuel)%nat -> (8 < depth)%nat -> iteration_order iter ->
  converts odd_turns (1 / 2000) /\
  quad_resolved lone_f lone_df lone (2, 2)%Z (rect_of (lone_x None)) /\
  converging secant33 newton34 (Some demo_f) lone (2, 2)%Z (rect_of (lone_x None)) /\
  let E := quad_env odd_turns romberg (called lone_f) (Some (called lone_df)) (1, 1)%Z fuel debug
    secant33 newton34 (fun _ => Err RuntimeError) true false in
  let out := calculateRoots demo_f (Some demo_f) (1, 1)%Z (argument_algorithm E NewtonV depth (fun _ => true) s0)
    (0, 1 # 100)%Q (0, 1 # 100)%Q None (rc_init None (3, 3)%Z) in
  snd out = Ok tt /\
  (exists c, In (c, 1%Z) (reported_pairs iter (fst out)) /\ within 1 (2, 2)%Z c (1 / 300, 1 / 300)) /\
  forall c k, In (c, k) (reported_pairs iter (fst out)) -> k = 1%Z /\ within 1 (2, 2)%Z c (1 / 300, 1 / 300).
Proof.
  exact (fun fuel depth debug s0 iter H1 H2 H3 => conj odd_converts (conj lone_quad
    (conj (lone_converging (Some demo_f)) (lone_quad_search fuel depth debug s0 iter H1 H2 H3)))).
Qed.

(** In parallel, two columns of two jobs. *)
Example C75_parallel_nonvacuous : forall n newton, (6001 <= Z.of_nat n)%Z ->
  let x := serial_context demo_f None (0, 0)%Z (0, 29 # 10)%Q (0, 57 # 10)%Q None in
  faithful odd_turns (1 / 2000) /\
  resolved_pieces (zero_product far_zeros) far_zeros n (1 / 2000) (1, 1)%Z (rect_of x) (createRootJobs 2 x) /\
  (forall job, In job (createRootJobs 2 x) -> (y2 (rect_of job) < y2 (rect_of x))%Q -> upper_side_whole far_zeros (1, 1)%Z (rect_of job)) /\
  (forall job, In job (createRootJobs 2 x) -> dense n (1, 1)%Z (rect_of job)) /\
  (forall job, In job (createRootJobs 2 x) -> converging far_secant newton None far_zeros (1, 1)%Z (rect_of job)).
Proof.
  exact (fun n newton H => conj odd_turns_faithful (conj (far_resolved n _ H small_eps)
    (conj far_upper (conj (fun job => far_dense n job H) (fun job _ => far_converging newton (rect_of job)))))).
Qed.
