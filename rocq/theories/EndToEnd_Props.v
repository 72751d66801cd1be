(** Property C63: a whole search with the simple argument algorithm.

    [E]: estimator, caches; [zeros]: the zeros of the function with multiplicity;
    [p], [sp]: the fresh, unfiltered container of the finder; [iter]: iteration order of the
    result set; [depth]: recursion depth available. *)
From Coq Require Import Reals Qreals Qminmax.
From Verif Require Import PyBase Rounding_Model Container_Model Container_Spec Finder_Model Finder_Spec
  Refine_Model Refine_Spec Zeros_Spec Refine_Proofs3 Refine_Examples EndToEnd_Model EndToEnd_Spec EndToEnd_Proofs EndToEnd_Proofs2
  EndToEnd_Proofs3 EndToEnd_Examples.
Open Scope Z_scope.

Theorem C63_serial_search :
  forall S (E : env S) zeros depth info s f df dflt reRan imRan prec p sp iter a b,
  let P := search_precision dflt prec in
  let out := calculateRoots f df dflt (argument_algorithm E Simple depth info s) reRan imRan prec (rc_init p sp) in
  iteration_order iter ->
  halvings (Qabs (fst reRan - snd reRan) + 3 * pow10 (- fst P)) (fst P) a ->
  halvings (Qabs (fst imRan - snd imRan) + 7 * pow10 (- snd P)) (snd P) b ->
  (a + b < depth)%nat ->
  reliable E zeros P (rect_of (serial_context f df dflt reRan imRan prec)) ->
  snd out = Ok tt /\
  let pairs := reported_pairs iter (fst out) in
  all_found 1 P zeros reRan imRan pairs /\
  all_genuine 1 P P zeros reRan imRan pairs /\
  (separated 1 P zeros -> orders_right 1 P P zeros reRan imRan pairs) /\
  (separated 2 P zeros -> exactly_once 1 P zeros reRan imRan pairs).
Proof. exact @C63_serial_lemma. Qed.
Print Assumptions C63_serial_search.

(** Some finite depth is always enough. *)
Theorem C63_depth_exists : forall (w : Q) (p : Z), exists a, halvings w p a.
Proof. exact (fun w p => halvings_exist w _ (pow10_pos (- p))). Qed.
Print Assumptions C63_depth_exists.

(** Parallel finder with [n * n] jobs on any number of workers: [st job] is the state in
    which a job finds the estimator, [e] any way the pool can end, in any schedule. *)
Theorem C63_parallel_search :
  forall S (E : env S) zeros depth n (st : rctx -> S) f df dflt reRan imRan prec p sp iter a b,
  let P := search_precision dflt prec in
  let P' := match prec with Some q => q | None => dflt end in
  let x := serial_context f df dflt reRan imRan prec in
  let jobs := createRootJobs n x in
  let outs := map (fun job => worker_output E Simple depth (st job) job) jobs in
  (1 <= n)%nat -> iteration_order iter ->
  halvings (Qabs (fst reRan - snd reRan) + 3 * pow10 (- fst P)) (fst P) a ->
  halvings (Qabs (fst imRan - snd imRan) + 7 * pow10 (- snd P)) (snd P) b ->
  (a + b < depth)%nat ->
  (forall job, In job jobs -> reliable E zeros P (rect_of job)) ->
  forall e info, pool_behaviour outs e ->
    (forall x', e <> PoolRaised x') /\
    let out := parallel_calculateRoots f dflt reRan imRan prec info e (rc_init p sp) in
    snd out = Ok tt /\
    let pairs := reported_pairs iter (fst out) in
    all_genuine (11 / 20) P' P zeros reRan imRan pairs /\
    (separated 1 P zeros -> orders_right (11 / 20) P' P zeros reRan imRan pairs) /\
    (forall q, e = PoolDone q ->
       all_found (11 / 20) P' zeros reRan imRan pairs /\
       (separated (11 / 10) P' zeros -> exactly_once (11 / 20) P' zeros reRan imRan pairs)).
Proof. exact @C63_parallel_lemma. Qed.
Print Assumptions C63_parallel_search.

(** No recursion limit truncates a search silently: it is complete, or RecursionError is
    raised. *)
Theorem C63_any_depth :
  forall S (E : env S) zeros depth info s f df dflt reRan imRan prec p sp iter,
  let P := search_precision dflt prec in
  let out := calculateRoots f df dflt (argument_algorithm E Simple depth info s) reRan imRan prec (rc_init p sp) in
  iteration_order iter ->
  reliable E zeros P (rect_of (serial_context f df dflt reRan imRan prec)) ->
  snd out = Err RecursionError \/
  (snd out = Ok tt /\
   let pairs := reported_pairs iter (fst out) in
   all_found 1 P zeros reRan imRan pairs /\
   all_genuine 1 P P zeros reRan imRan pairs /\
   (separated 1 P zeros -> orders_right 1 P P zeros reRan imRan pairs) /\
   (separated 2 P zeros -> exactly_once 1 P zeros reRan imRan pairs)).
Proof. exact C63_any_depth_lemma. Qed.
Print Assumptions C63_any_depth.

Theorem C63_parallel_any_depth :
  forall S (E : env S) zeros depth n (st : rctx -> S) f df dflt reRan imRan prec p sp iter,
  let P := search_precision dflt prec in
  let P' := match prec with Some q => q | None => dflt end in
  let x := serial_context f df dflt reRan imRan prec in
  let jobs := createRootJobs n x in
  let outs := map (fun job => worker_output E Simple depth (st job) job) jobs in
  (1 <= n)%nat -> iteration_order iter ->
  (forall job, In job jobs -> reliable E zeros P (rect_of job)) ->
  forall e info, pool_behaviour outs e ->
    let out := parallel_calculateRoots f dflt reRan imRan prec info e (rc_init p sp) in
    (forall x', e = PoolRaised x' -> snd out = Err RecursionError) /\
    (forall q, e = PoolDone q ->
       snd out = Ok tt /\
       let pairs := reported_pairs iter (fst out) in
       all_found (11 / 20) P' zeros reRan imRan pairs /\
       all_genuine (11 / 20) P' P zeros reRan imRan pairs /\
       (separated 1 P zeros -> orders_right (11 / 20) P' P zeros reRan imRan pairs) /\
       (separated (11 / 10) P' zeros -> exactly_once (11 / 20) P' zeros reRan imRan pairs)).
Proof. exact C63_parallel_any_depth_lemma. Qed.
Print Assumptions C63_parallel_any_depth.

Example C63_too_shallow :
  snd (calculateRoots demo_f None (0, 0)
    (argument_algorithm (exact_env demo_qzeros (1, 1)) Simple 5 (fun _ => true) tt)
    (2, 0)%Q (0, 2)%Q None (rc_init None (3, 3))) = Err RecursionError.
Proof. vm_compute. reflexivity. Qed.

(** ** Non-vacuity: hypotheses met, all of them, by a search for three zeros. *)
Example C63_nonvacuous :
  reliable (exact_env demo_qzeros (1, 1)) demo_zeros (1, 1) (rect_of demo_x) /\
  (forall job, In job (createRootJobs 2 demo_x) ->
     reliable (exact_env demo_qzeros (1, 1)) demo_zeros (1, 1) (rect_of job)) /\
  search_precision (0, 0) None = (1, 1) /\
  (halvings (Qabs (2 - 0) + 3 * pow10 (- 1)) 1 5 /\ halvings (Qabs (0 - 2) + 7 * pow10 (- 1)) 1 5) /\
  (separated 2 (1, 1) demo_zeros /\ separated (11 / 10) (0, 0) demo_zeros) /\
  reported_pairs (fun l => l) (fst (calculateRoots demo_f None (0, 0)
    (argument_algorithm (exact_env demo_qzeros (1, 1)) Simple 11 (fun _ => true) tt)
    (2, 0)%Q (0, 2)%Q None (rc_init None (3, 3)))) =
  [((2 # 5)%Q, (3 # 10)%Q, 2); ((17 # 10)%Q, (13 # 10)%Q, 1)].
Proof.
  exact (conj (demo_reliable _ _ demo_x_decimal)
    (conj (fun job H => demo_reliable _ _ (demo_jobs_decimal job H))
    (conj eq_refl (conj demo_halvings (conj demo_separated demo_output))))).
Qed.
