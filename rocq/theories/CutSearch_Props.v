(** * Property C94, continued: interrupted searches and the caches of the estimator

    As in C71; [after_interrupted .. h new_estimator] is the estimator after the searches [h],
    those marked [Some (k, j)] interrupted in their request number [k] after [j] of its
    dictionary operations. *)
From Coq Require Import Reals Qreals Qminmax.
From Verif Require Import PyBase Rounding_Model Container_Model Container_Spec Finder_Model Finder_Spec
  Refine_Model Refine_Spec Zeros_Spec Cache_Model Sum_Model Sum_Spec Arg_Spec EndToEnd_Model EndToEnd_Spec EndToEnd_Examples
  Whole_Model Whole_Spec Whole_Proofs Whole_Proofs3 Whole_Examples Whole_Examples2 CutSearch_Model CutSearch_Proofs CutResume_Proofs2 Qsearch_Model CutResume_Quad.
Open Scope R_scope.

(** A search finds exactly the zeros after any searches of the same finder, interrupted ones
    included, if no side of one of its cells lies on the level of a side of a cell of an
    earlier search. *)
Theorem C94_reuse :
  forall g zeros turns eps delta mp n eprec fuel debug secant newton polyroots has_df progress,
  0 < delta -> (2 <= n)%nat -> (100 * n + 3 <= fuel)%nat -> faithful turns eps ->
  forall h depth info f df dflt reRan imRan prec p sp iter a b,
  let E := sum_env turns g delta mp n eprec fuel debug secant newton polyroots has_df progress in
  let P := search_precision dflt prec in
  let r := rect_of (serial_context f df dflt reRan imRan prec) in
  let s := after_interrupted turns g delta mp n eprec fuel debug secant newton polyroots has_df progress h new_estimator in
  let out := calculateRoots f df dflt (argument_algorithm E Simple depth info s) reRan imRan prec (rc_init p sp) in
  (forall x d c, In (x, d, c) h -> no_common_level (cx_precision x) (rect_of x) P r) ->
  iteration_order iter -> resolved g zeros n eps P r -> dense n P r ->
  halvings (Qabs (fst reRan - snd reRan) + 3 * pow10 (- fst P)) (fst P) a ->
  halvings (Qabs (fst imRan - snd imRan) + 7 * pow10 (- snd P)) (snd P) b ->
  (a + b < depth)%nat ->
  snd out = Ok tt /\
  let pairs := reported_pairs iter (fst out) in
  all_found 1 P zeros reRan imRan pairs /\
  all_genuine 1 P P zeros reRan imRan pairs /\
  (separated 1 P zeros -> orders_right 1 P P zeros reRan imRan pairs) /\
  (separated 2 P zeros -> exactly_once 1 P zeros reRan imRan pairs).
Proof. exact interrupted_reuse. Qed.
Print Assumptions C94_reuse.

(** The condition is met by interrupting the search of [1/3, 13/30]^2 anywhere before that of
    C70's example. *)
Example C94_reuse_nonvacuous : forall n (depth k j : nat), (2001 <= Z.of_nat n)%Z ->
  (forall x d c, In (x, d, c) [(other_x, depth, Some (k, j))] ->
     no_common_level (cx_precision x) (rect_of x) (search_precision (0, 0)%Z None) (rect_of small_x)) /\
  resolved (zero_product twin) twin n (1 / 2000) (1, 1)%Z (rect_of small_x) /\ dense n (1, 1)%Z (rect_of small_x).
Proof.
  intros n depth k j H. destruct (other_then_small n depth H) as [A B]. split; [|exact B].
  intros x d c [E|[]]. injection E as E1 E2 E3. subst x d. apply (A other_x depth). left. reflexivity.
Qed.

(** Without that condition zeros are lost, even if the interrupted search is made again: for
    f(z) = z - (67 + i) / 60, any number of sample points from 2001 on (the default 6500
    included), default deltaPhi and maxPrecision, the search of [0, 1.3] x [0, 0.1] finds the
    zero with a new finder.  If that search is interrupted in its sixth request, while the
    first half of the rectangle is examined, and made again with the same finder, it
    reports nothing, although the sampling resolves the function. *)
Theorem C94_resume_refuted :
  forall turns eps n eprec fuel depth debug info iter,
  faithful turns eps -> eps <= 1 / 200 -> (2001 <= Z.of_nat n)%Z -> (100 * n + 3 <= fuel)%nat -> (9 < depth)%nat ->
  iteration_order iter ->
  let line := interrupted_line turns 0 (zero_product single) (1 / 100) (1 # 10000000000) n eprec fuel in
  let E' := cached_env line debug
    (fun _ _ => Err RuntimeError) (fun _ => Err RuntimeError) (fun _ => Err RuntimeError) false eprec false in
  let E := sum_env turns (zero_product single) (1 / 100) (1 # 10000000000) n eprec fuel debug
    (fun _ _ => Err RuntimeError) (fun _ => Err RuntimeError) (fun _ => Err RuntimeError) false false in
  let left := leaves_interrupted turns 0 5 (zero_product single) (1 / 100) (1 # 10000000000) n eprec fuel debug
    (fun _ _ => Err RuntimeError) (fun _ => Err RuntimeError) (fun _ => Err RuntimeError) false false
    depth second_x new_estimator in
  let search alg c := calculateRoots demo_f None (0, 0)%Z alg (0, 13 # 10)%Q (0, 1 # 10)%Q None c in
  let cut := argument_algorithm E' Simple depth info (new_cache, (5%nat, fresh_sum)) in
  let out1 := search cut (rc_init None (3, 3)%Z) in
  let out2 := search (argument_algorithm E Simple depth info left) (fst out1) in
  let alone := search (argument_algorithm E Simple depth info new_estimator) (rc_init None (3, 3)%Z) in
  (ar_end (cut second_x) = Some KeyboardInterrupt /\ snd out1 = Ok tt) /\
  (snd out2 = Ok tt /\ reported_pairs iter (fst out2) = []) /\
  snd alone = Ok tt /\
  exists c, In (c, 1%Z) (reported_pairs iter (fst alone)) /\ within 1 (1, 1)%Z c (IZR 67 / 60, IZR 1 / 60).
Proof. exact resumed_search_loses. Qed.
Print Assumptions C94_resume_refuted.

(** The witness: the zero, what is requested and what is resolved. *)
Example C94_resume_witness : forall n eps, (2001 <= Z.of_nat n)%Z -> eps <= 1 / 200 ->
  single = [(IZR 67 / 60, IZR 1 / 60)] /\
  second_x = serial_context demo_f None (0, 0)%Z (0, 13 # 10)%Q (0, 1 # 10)%Q None /\
  resolved (zero_product single) single n eps (1, 1)%Z (rect_of second_x) /\ faithful odd_turns (1 / 2000).
Proof.
  exact (fun n eps H1 H2 => conj eq_refl (conj eq_refl (conj (single_resolved n eps H1 H2) odd_turns_faithful))).
Qed.

(** With the quadrature estimator, which has no line cache, there is no such loss: whatever an
    interrupted search has left in the estimator's cache, the next search with the same
    finder reports, returns and stores the same as with a new one. *)
Theorem C94_quadrature :
  forall turns romb f df eprec fuel debug secant newton polyroots has_df progress
         v depth info fH dfH dflt reRan imRan prec s cont,
  let E := quad_env turns romb f df eprec fuel debug secant newton polyroots has_df progress in
  let search s := calculateRoots fH dfH dflt (argument_algorithm E v depth info s) reRan imRan prec cont in
  search s = search (new_cache, tt).
Proof. exact quadrature_from_any. Qed.
Print Assumptions C94_quadrature.

(** A cache with one of the two entries of a side, as left by an interrupt within [store]. *)
Example C94_quadrature_nonvacuous :
  ec_dirty (ec_store 0 (0, 0)%Q (1, 0)%Q (1, 0)%Q new_cache) = true /\
  ec_lookup 0 (0, 0)%Q (1, 0)%Q (ec_store 0 (0, 0)%Q (1, 0)%Q (1, 0)%Q new_cache) = Some (1, 0)%Q.
Proof. vm_compute. split; reflexivity. Qed.
