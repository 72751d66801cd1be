(** * Property C70: a whole search with the summation estimator and its caches

    [g]: the function as the estimator samples it; [n] = numPts, [delta] = deltaPhi, [mp] =
    maxPrecision; [turns]: conversion of angles to turns, rounding included. *)
From Coq Require Import Reals Qreals Qminmax.
From Verif Require Import PyBase Rounding_Model Container_Model Container_Spec Finder_Model Finder_Spec
  Refine_Model Refine_Spec Zeros_Spec Cache_Model Sum_Model Sum_Spec Arg_Spec EndToEnd_Model EndToEnd_Spec EndToEnd_Examples
  Whole_Model Whole_Spec Whole_Proofs Whole_Examples Chunk_Model Chunk_Spec Chunk_Proofs2 Chunk_Examples.
Open Scope R_scope.

(** ** C70 *)
(** If the sampling resolves the function, a search of a new finder either raises
    RecursionError (recursion limit), or IndexError (only if samples are not dense), or
    finds exactly the zeros, although most lines are answered from one of the two caches. *)
Theorem C70_serial :
  forall g zeros turns eps delta mp n eprec fuel debug secant newton polyroots has_df progress,
  0 < delta -> (2 <= n)%nat -> (100 * n + 3 <= fuel)%nat -> faithful turns eps ->
  forall depth info f df dflt reRan imRan prec p sp iter,
  let E := sum_env turns g delta mp n eprec fuel debug secant newton polyroots has_df progress in
  let P := search_precision dflt prec in
  let r := rect_of (serial_context f df dflt reRan imRan prec) in
  let out := calculateRoots f df dflt (argument_algorithm E Simple depth info new_estimator) reRan imRan prec (rc_init p sp) in
  iteration_order iter -> resolved g zeros n eps P r ->
  snd out = Err RecursionError \/ (snd out = Err IndexError /\ ~ dense n P r) \/
  (snd out = Ok tt /\
   let pairs := reported_pairs iter (fst out) in
   all_found 1 P zeros reRan imRan pairs /\
   all_genuine 1 P P zeros reRan imRan pairs /\
   (separated 1 P zeros -> orders_right 1 P P zeros reRan imRan pairs) /\
   (separated 2 P zeros -> exactly_once 1 P zeros reRan imRan pairs)).
Proof. exact C70_serial_lemma. Qed.
Print Assumptions C70_serial.

(** With dense samples and enough recursion depth the search succeeds. *)
Theorem C70_complete :
  forall g zeros turns eps delta mp n eprec fuel debug secant newton polyroots has_df progress,
  0 < delta -> (2 <= n)%nat -> (100 * n + 3 <= fuel)%nat -> faithful turns eps ->
  forall depth info f df dflt reRan imRan prec p sp iter a b,
  let E := sum_env turns g delta mp n eprec fuel debug secant newton polyroots has_df progress in
  let P := search_precision dflt prec in
  let r := rect_of (serial_context f df dflt reRan imRan prec) in
  let out := calculateRoots f df dflt (argument_algorithm E Simple depth info new_estimator) reRan imRan prec (rc_init p sp) in
  iteration_order iter -> resolved g zeros n eps P r -> dense n P r ->
  halvings (Qabs (fst reRan - snd reRan) + 3 * pow10 (- fst P)) (fst P) a ->
  halvings (Qabs (fst imRan - snd imRan) + 7 * pow10 (- snd P)) (snd P) b ->
  (a + b < depth)%nat ->
  snd out = Ok tt /\
  let pairs := reported_pairs iter (fst out) in
  all_found 1 P zeros reRan imRan pairs /\
  all_genuine 1 P P zeros reRan imRan pairs /\
  (separated 1 P zeros -> orders_right 1 P P zeros reRan imRan pairs) /\
  (separated 2 P zeros -> exactly_once 1 P zeros reRan imRan pairs).
Proof. exact C70_complete_lemma. Qed.
Print Assumptions C70_complete.

(** The parallel finder, [m * m] jobs in [m] chunks (columns) whose jobs share one copy of the
    estimator (C80), in any schedule.  The condition on upper sides is needed because a job
    finds the samples of the upper side of the job below it. *)
Theorem C70_parallel :
  forall g zeros turns eps delta mp n eprec fuel debug secant newton polyroots has_df progress,
  0 < delta -> (2 <= n)%nat -> (100 * n + 3 <= fuel)%nat -> faithful turns eps ->
  forall m depth f df dflt reRan imRan prec p sp iter,
  let E := sum_env turns g delta mp n eprec fuel debug secant newton polyroots has_df progress in
  let P := search_precision dflt prec in
  let P' := match prec with Some q => q | None => dflt end in
  let x := serial_context f df dflt reRan imRan prec in
  let jobs := createRootJobs m x in
  let outs := pool_outputs E Simple depth new_estimator m x in
  (1 <= m)%nat -> iteration_order iter ->
  resolved_pieces g zeros n eps P (rect_of x) jobs ->
  (forall job, In job jobs -> (y2 (rect_of job) < y2 (rect_of x))%Q -> upper_side_whole zeros P (rect_of job)) ->
  forall e info, pool_behaviour outs e ->
    let out := parallel_calculateRoots f dflt reRan imRan prec info e (rc_init p sp) in
    (forall x', e = PoolRaised x' ->
       snd out = Err RecursionError \/
       (snd out = Err IndexError /\ exists job, In job jobs /\ ~ dense n P (rect_of job))) /\
    (forall q, e = PoolDone q ->
       snd out = Ok tt /\
       let pairs := reported_pairs iter (fst out) in
       all_found (11 / 20) P' zeros reRan imRan pairs /\
       all_genuine (11 / 20) P' P zeros reRan imRan pairs /\
       (separated 1 P zeros -> orders_right (11 / 20) P' P zeros reRan imRan pairs) /\
       (separated (11 / 10) P' zeros -> exactly_once (11 / 20) P' zeros reRan imRan pairs)).
Proof. exact C70_parallel_lemma. Qed.
Print Assumptions C70_parallel.

Theorem C70_parallel_complete :
  forall g zeros turns eps delta mp n eprec fuel debug secant newton polyroots has_df progress,
  0 < delta -> (2 <= n)%nat -> (100 * n + 3 <= fuel)%nat -> faithful turns eps ->
  forall m depth f df dflt reRan imRan prec p sp iter,
  let E := sum_env turns g delta mp n eprec fuel debug secant newton polyroots has_df progress in
  let P := search_precision dflt prec in
  let P' := match prec with Some q => q | None => dflt end in
  let x := serial_context f df dflt reRan imRan prec in
  let jobs := createRootJobs m x in
  let outs := pool_outputs E Simple depth new_estimator m x in
  (1 <= m)%nat -> iteration_order iter ->
  resolved_pieces g zeros n eps P (rect_of x) jobs ->
  (forall job, In job jobs -> (y2 (rect_of job) < y2 (rect_of x))%Q -> upper_side_whole zeros P (rect_of job)) ->
  forall a b e info,
  (forall job, In job jobs -> dense n P (rect_of job)) ->
  halvings (Qabs (fst reRan - snd reRan) + 3 * pow10 (- fst P)) (fst P) a ->
  halvings (Qabs (fst imRan - snd imRan) + 7 * pow10 (- snd P)) (snd P) b ->
  (a + b < depth)%nat -> pool_behaviour outs e ->
  (forall x', e <> PoolRaised x') /\
  let out := parallel_calculateRoots f dflt reRan imRan prec info e (rc_init p sp) in
  snd out = Ok tt /\
  let pairs := reported_pairs iter (fst out) in
  all_genuine (11 / 20) P' P zeros reRan imRan pairs /\
  (separated 1 P zeros -> orders_right (11 / 20) P' P zeros reRan imRan pairs) /\
  (forall q, e = PoolDone q ->
     all_found (11 / 20) P' zeros reRan imRan pairs /\
     (separated (11 / 10) P' zeros -> exactly_once (11 / 20) P' zeros reRan imRan pairs)).
Proof. exact C70_parallel_complete_lemma. Qed.
Print Assumptions C70_parallel_complete.

(** All hypotheses are met by a search for a double zero at (1 + i) / 15, and it finds it,
    once, with order 2. *)
Example C70_nonvacuous : forall n fuel depth debug iter,
  (2001 <= Z.of_nat n)%Z -> (100 * n + 3 <= fuel)%nat -> (8 < depth)%nat -> iteration_order iter ->
  faithful odd_turns (1 / 2000) /\
  resolved (zero_product twin) twin n (1 / 2000) (1, 1)%Z (rect_of small_x) /\
  dense n (1, 1)%Z (rect_of small_x) /\
  let E := sum_env odd_turns (zero_product twin) (1 / 100) (1 # 10000000000) n (1, 1)%Z fuel debug
    (fun _ _ => Err RuntimeError) (fun _ => Err RuntimeError) (fun _ => Err RuntimeError) false false in
  let out := calculateRoots demo_f None (0, 0)%Z (argument_algorithm E Simple depth (fun _ => true) new_estimator)
    (0, 1 # 10)%Q (0, 1 # 10)%Q None (rc_init None (3, 3)%Z) in
  snd out = Ok tt /\
  exists c, In (c, 2%Z) (reported_pairs iter (fst out)) /\ within 1 (1, 1)%Z c (1 / 15, 1 / 15) /\
    forall c' k', In (c', k') (reported_pairs iter (fst out)) -> (c', k') = (c, 2%Z).
Proof.
  exact (fun n fuel depth debug iter H1 H2 H3 H4 =>
    conj odd_turns_faithful (conj (twin_resolved n H1) (conj (twin_dense n H1) (twin_search n fuel depth debug iter H1 H2 H3 H4)))).
Qed.

(** The parallel finder on two processors: zeros at (31 + 22 i) / 60, in the lower left job,
    and (137 + 283 i) / 60, in the upper right one. *)
Example C70_parallel_nonvacuous : forall n fuel depth debug iter e info,
  (6001 <= Z.of_nat n)%Z -> (100 * n + 3 <= fuel)%nat -> (13 < depth)%nat -> iteration_order iter ->
  let x := serial_context demo_f None (0, 0)%Z (0, 29 # 10)%Q (0, 57 # 10)%Q None in
  faithful odd_turns (1 / 2000) /\
  resolved_pieces (zero_product far_zeros) far_zeros n (1 / 2000) (1, 1)%Z (rect_of x) (createRootJobs 2 x) /\
  (forall job, In job (createRootJobs 2 x) -> (y2 (rect_of job) < y2 (rect_of x))%Q -> upper_side_whole far_zeros (1, 1)%Z (rect_of job)) /\
  (forall job, In job (createRootJobs 2 x) -> dense n (1, 1)%Z (rect_of job)) /\
  let E := sum_env odd_turns (zero_product far_zeros) (1 / 100) (1 # 10000000000) n (1, 1)%Z fuel debug
    (fun _ _ => Err RuntimeError) (fun _ => Err RuntimeError) (fun _ => Err RuntimeError) false false in
  (pool_behaviour (pool_outputs E Simple depth new_estimator 2 x) e ->
   let out := parallel_calculateRoots demo_f (0, 0)%Z (0, 29 # 10)%Q (0, 57 # 10)%Q None info e (rc_init None (3, 3)%Z) in
   snd out = Ok tt /\ forall q, e = PoolDone q ->
     exactly_once (11 / 20) (0, 0)%Z far_zeros (0, 29 # 10)%Q (0, 57 # 10)%Q (reported_pairs iter (fst out))).
Proof.
  exact (fun n fuel depth debug iter e info H1 H2 H3 H4 => conj odd_turns_faithful (conj (far_resolved n _ H1 small_eps)
    (conj far_upper (conj (fun job => far_dense n job H1)
      (far_search n _ odd_turns (1, 1)%Z fuel depth debug e info None (3, 3)%Z iter odd_turns_faithful small_eps H1 H2 H3 H4))))).
Qed.
