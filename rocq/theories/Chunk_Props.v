(** * C80: the jobs of the parallel finder share estimators column by column *)
From Coq Require Import Reals Qreals.
From Verif Require Import PyBase Rounding_Model Poly_Model Container_Model Container_Spec Finder_Model Finder_Spec
  Refine_Model Refine_Spec Refine_Examples Zeros_Spec Sum_Model Sum_Spec Arg_Spec EndToEnd_Model EndToEnd_Spec EndToEnd_Examples
  Whole_Model Whole_Spec Chunk_Model Chunk_Spec Chunk_Proofs3 Chunk_Loss4 Chunk_Examples Whole_Examples
  Cache_Model Qsearch_Model Chunk_Quad.
Open Scope Z_scope.

(** The tasks handed to the pool: every job exactly once, [m] tasks of [m] jobs, one per
    column of the domain, from the bottom upwards. *)
Theorem C80_tasks_are_columns : forall (m : nat) (x : rctx), (1 <= m)%nat ->
  let chunks := get_tasks m (createRootJobs m x) in
  List.length chunks = m /\ List.concat chunks = createRootJobs m x /\
  forall c, In c chunks ->
    List.length c = m /\
    (forall a b, In a c -> In b c -> cx_reRan a = cx_reRan b) /\
    (forall l1 a b l2, c = l1 ++ a :: b :: l2 -> snd (cx_imRan a) = fst (cx_imRan b)).
Proof. exact C80_columns_lemma. Qed.
Print Assumptions C80_tasks_are_columns.

(** What a task does.  Either no job raises, and the task reports everything its jobs report;
    or the first job that raises ends the task: what the jobs before it report, what it
    reports itself before it fails, and nothing of the later ones.  Every job starts with
    the estimator that the jobs before it have left. *)
Theorem C80_task_outcome : forall T (E : env T) v depth s c,
  (forall l1 x l2, c = l1 ++ x :: l2 -> snd (worker_output E v depth (state_after E v depth s l1) x) = None) /\
  (exists outs, run_chunk E v depth s c = (List.concat outs, None) /\ List.length outs = List.length c /\
    forall l1 x l2, c = l1 ++ x :: l2 ->
      nth_error outs (List.length l1) = Some (fst (worker_output E v depth (state_after E v depth s l1) x)))
  \/
  exists l1 x l2 e, c = l1 ++ x :: l2 /\
    (forall k1 y k2, l1 = k1 ++ y :: k2 -> snd (worker_output E v depth (state_after E v depth s k1) y) = None) /\
    snd (worker_output E v depth (state_after E v depth s l1) x) = Some e /\
    exists outs, run_chunk E v depth s c =
        (List.concat outs ++ fst (worker_output E v depth (state_after E v depth s l1) x), Some e) /\
      List.length outs = List.length l1 /\
      forall k1 y k2, l1 = k1 ++ y :: k2 ->
        nth_error outs (List.length k1) = Some (fst (worker_output E v depth (state_after E v depth s k1) y)).
Proof. exact @C80_outcome_lemma. Qed.
Print Assumptions C80_task_outcome.

(** With the quadrature estimator the jobs of a task do not disturb each other: every job does
    what it would do with a new finder, whatever state [s] the finder was in when the
    parallel search began. *)
Theorem C80_quadrature :
  forall turns romb f df eprec fuel debug secant newton polyroots has_df progress v depth c s,
  let E := quad_env turns romb f df eprec fuel debug secant newton polyroots has_df progress in
  let alone := worker_output E v depth (new_cache, tt) in
  ((forall x, In x c -> snd (alone x) = None) /\
   run_chunk E v depth s c = (List.concat (map (fun x => fst (alone x)) c), None)) \/
  exists l1 x l2 e, c = l1 ++ x :: l2 /\ (forall y, In y l1 -> snd (alone y) = None) /\ snd (alone x) = Some e /\
    run_chunk E v depth s c = (List.concat (map (fun y => fst (alone y)) l1) ++ fst (alone x), Some e).
Proof. exact quads_apart. Qed.
Print Assumptions C80_quadrature.

(** With an estimator that is reliable in every state (C63), the sharing does no harm. *)
Theorem C80_reliable_estimator :
  forall S (E : env S) zeros depth m s f df dflt reRan imRan prec p sp iter a b,
  let P := search_precision dflt prec in
  let P' := match prec with Some q => q | None => dflt end in
  let x := serial_context f df dflt reRan imRan prec in
  (1 <= m)%nat -> iteration_order iter ->
  halvings (Qabs (fst reRan - snd reRan) + 3 * pow10 (- fst P)) (fst P) a ->
  halvings (Qabs (fst imRan - snd imRan) + 7 * pow10 (- snd P)) (snd P) b ->
  (a + b < depth)%nat ->
  (forall job, In job (createRootJobs m x) -> reliable E zeros P (rect_of job)) ->
  forall e info, pool_behaviour (pool_outputs E Simple depth s m x) e ->
    (forall x', e <> PoolRaised x') /\
    let out := parallel_calculateRoots f dflt reRan imRan prec info e (rc_init p sp) in
    snd out = Ok tt /\
    let pairs := reported_pairs iter (fst out) in
    all_genuine (11 / 20) P' P zeros reRan imRan pairs /\
    (separated 1 P zeros -> orders_right (11 / 20) P' P zeros reRan imRan pairs) /\
    (forall q, e = PoolDone q ->
       all_found (11 / 20) P' zeros reRan imRan pairs /\
       (separated (11 / 10) P' zeros -> exactly_once (11 / 20) P' zeros reRan imRan pairs)).
Proof. exact C80_reliable_lemma. Qed.
Print Assumptions C80_reliable_estimator.

Theorem C80_reliable_any_depth :
  forall S (E : env S) zeros depth m s f df dflt reRan imRan prec p sp iter,
  let P := search_precision dflt prec in
  let P' := match prec with Some q => q | None => dflt end in
  let x := serial_context f df dflt reRan imRan prec in
  (1 <= m)%nat -> iteration_order iter ->
  (forall job, In job (createRootJobs m x) -> reliable E zeros P (rect_of job)) ->
  forall e info, pool_behaviour (pool_outputs E Simple depth s m x) e ->
    let out := parallel_calculateRoots f dflt reRan imRan prec info e (rc_init p sp) in
    (forall x', e = PoolRaised x' -> snd out = Err RecursionError) /\
    (forall q, e = PoolDone q ->
       snd out = Ok tt /\
       let pairs := reported_pairs iter (fst out) in
       all_found (11 / 20) P' zeros reRan imRan pairs /\
       all_genuine (11 / 20) P' P zeros reRan imRan pairs /\
       (separated 1 P zeros -> orders_right (11 / 20) P' P zeros reRan imRan pairs) /\
       (separated (11 / 10) P' zeros -> exactly_once (11 / 20) P' zeros reRan imRan pairs)).
Proof. exact C80_any_depth_lemma. Qed.
Print Assumptions C80_reliable_any_depth.

(** With the default estimator the sharing costs zeros.  f has simple zeros at
    (184 + i) / 60 and (137 + 79 i) / 60; the search for them in [0, 6.1] x [0, 2.5] on two
    processors, with at least 6001 sample points per side (the default is 6500), samples every
    side of every cell well enough, and there are enough points for the finest cells; yet the
    pool always ends without an exception and never reports the second zero.  The serial
    finder reports it. *)
Theorem C80_sharing_refuted :
  forall turns eps delta mp n eprec fuel depth debug secant newton polyroots has_df progress p sp iter,
  faithful turns eps -> (eps <= 1 / 1000)%R -> (0 < delta)%R -> (6001 <= Z.of_nat n)%Z ->
  (100 * n + 3 <= fuel)%nat -> (13 < depth)%nat -> iteration_order iter ->
  let lost := (137 / 60, 79 / 60)%R in
  let zeros := [(184 / 60, 1 / 60)%R; lost] in
  let E := sum_env turns (zero_product zeros) delta mp n eprec fuel debug secant newton polyroots has_df progress in
  let reRan := (0, 61 # 10)%Q in
  let imRan := (0, 5 # 2)%Q in
  let x := serial_context demo_f None (0, 0) reRan imRan None in
  let jobs := createRootJobs 2 x in
  let outs := pool_outputs E Simple depth new_estimator 2 x in
  (resolved_pieces (zero_product zeros) zeros n eps (1, 1) (rect_of x) jobs /\
   (forall job, In job jobs -> dense n (1, 1) (rect_of job)) /\
   requested reRan imRan lost) /\
  (exists q, pool_behaviour outs (PoolDone q)) /\
  (forall e info, pool_behaviour outs e ->
     (forall x', e <> PoolRaised x') /\
     let out := parallel_calculateRoots demo_f (0, 0) reRan imRan None info e (rc_init p sp) in
     snd out = Ok tt /\
     forall c k, In (c, k) (reported_pairs iter (fst out)) -> ~ within (11 / 20) (0, 0) c lost) /\
  (forall info,
     let out := calculateRoots demo_f None (0, 0) (argument_algorithm E Simple depth info new_estimator) reRan imRan None (rc_init p sp) in
     snd out = Ok tt /\
     exists c k, In (c, k) (reported_pairs iter (fst out)) /\ (1 <= k)%Z /\ within 1 (1, 1) c lost).
Proof. exact C80_sharing_lemma. Qed.
Print Assumptions C80_sharing_refuted.

(** ** Non-vacuity *)
Example C80_nonvacuous :
  (forall job, In job (createRootJobs 2 demo_x) ->
     reliable (exact_env demo_qzeros (1, 1)) demo_zeros (1, 1) (rect_of job)) /\
  map (fun o => (map (fun r : root => snd r) (fst o), snd o)) (pool_outputs (exact_env demo_qzeros (1, 1)) Simple 11 tt 2 demo_x) =
    [([2], None); ([1], None)] /\
  map (fun o => (map (fun r : root => snd r) (fst o), snd o)) (pool_outputs (exact_env demo_qzeros (1, 1)) Simple 5 tt 2 demo_x) =
    [([], Some RecursionError); ([], Some RecursionError)].
Proof.
  split; [exact (fun job H => demo_reliable _ _ (demo_jobs_decimal job H))|]. split; vm_compute; reflexivity.
Qed.

Example C80_sharing_nonvacuous : faithful odd_turns (1 / 2000) /\ (1 / 2000 <= 1 / 1000)%R.
Proof. exact (conj odd_turns_faithful small_eps). Qed.
