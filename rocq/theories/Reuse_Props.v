(** * Property C71: several searches with one finder

    As in C70; [after_searches E h new_estimator] is the estimator after the searches [h]. *)
From Coq Require Import Reals Qreals Qminmax.
From Verif Require Import PyBase Rounding_Model Container_Model Container_Spec Finder_Model Finder_Spec
  Refine_Model Refine_Spec Zeros_Spec Cache_Model Sum_Model Sum_Spec Arg_Spec EndToEnd_Model EndToEnd_Spec EndToEnd_Examples
  Whole_Model Whole_Spec Whole_Proofs Whole_Proofs3 Whole_Examples Whole_Examples2.
Open Scope R_scope.

(** ** C71 *)
(** A used finder answers like a new one if no side of a cell of the search lies on the
    level of a side of a cell of an earlier search, whatever the earlier searches were and
    however they ended. *)
Theorem C71_reuse :
  forall g zeros turns eps delta mp n eprec fuel debug secant newton polyroots has_df progress,
  0 < delta -> (2 <= n)%nat -> (100 * n + 3 <= fuel)%nat -> faithful turns eps ->
  forall h depth info f df dflt reRan imRan prec p sp iter,
  let E := sum_env turns g delta mp n eprec fuel debug secant newton polyroots has_df progress in
  let P := search_precision dflt prec in
  let r := rect_of (serial_context f df dflt reRan imRan prec) in
  let s := after_searches E h new_estimator in
  let out := calculateRoots f df dflt (argument_algorithm E Simple depth info s) reRan imRan prec (rc_init p sp) in
  (forall x d, In (x, d) h -> no_common_level (cx_precision x) (rect_of x) P r) ->
  iteration_order iter -> resolved g zeros n eps P r ->
  snd out = Err RecursionError \/ (snd out = Err IndexError /\ ~ dense n P r) \/
  (snd out = Ok tt /\
   let pairs := reported_pairs iter (fst out) in
   all_found 1 P zeros reRan imRan pairs /\
   all_genuine 1 P P zeros reRan imRan pairs /\
   (separated 1 P zeros -> orders_right 1 P P zeros reRan imRan pairs) /\
   (separated 2 P zeros -> exactly_once 1 P zeros reRan imRan pairs)).
Proof. exact reuse_lemma. Qed.
Print Assumptions C71_reuse.

Theorem C71_reuse_complete :
  forall g zeros turns eps delta mp n eprec fuel debug secant newton polyroots has_df progress,
  0 < delta -> (2 <= n)%nat -> (100 * n + 3 <= fuel)%nat -> faithful turns eps ->
  forall h depth info f df dflt reRan imRan prec p sp iter a b,
  let E := sum_env turns g delta mp n eprec fuel debug secant newton polyroots has_df progress in
  let P := search_precision dflt prec in
  let r := rect_of (serial_context f df dflt reRan imRan prec) in
  let s := after_searches E h new_estimator in
  let out := calculateRoots f df dflt (argument_algorithm E Simple depth info s) reRan imRan prec (rc_init p sp) in
  (forall x d, In (x, d) h -> no_common_level (cx_precision x) (rect_of x) P r) ->
  iteration_order iter -> resolved g zeros n eps P r -> dense n P r ->
  halvings (Qabs (fst reRan - snd reRan) + 3 * pow10 (- fst P)) (fst P) a ->
  halvings (Qabs (fst imRan - snd imRan) + 7 * pow10 (- snd P)) (snd P) b ->
  (a + b < depth)%nat ->
  snd out = Ok tt /\
  let pairs := reported_pairs iter (fst out) in
  all_found 1 P zeros reRan imRan pairs /\
  all_genuine 1 P P zeros reRan imRan pairs /\
  (separated 1 P zeros -> orders_right 1 P P zeros reRan imRan pairs) /\
  (separated 2 P zeros -> exactly_once 1 P zeros reRan imRan pairs).
Proof. exact reuse_complete_lemma. Qed.
Print Assumptions C71_reuse_complete.

(** Without that condition zeros are lost: for f(z) = z - (13 + i) / 15, any number of sample
    points from 1001 on (the default 6500 included), default deltaPhi and maxPrecision, the
    search of [0, 1.3] x [0, 0.1] finds the zero with a new finder, but reports nothing after
    a search of [0, 0] x [0, 0] with the same finder, although both searches return normally
    and the sampling resolves the function. *)
Theorem C71_second_search_refuted :
  forall turns eps n eprec fuel depth debug info iter,
  faithful turns eps -> eps <= 1 / 100 -> (1001 <= Z.of_nat n)%Z -> (100 * n + 3 <= fuel)%nat -> (9 < depth)%nat ->
  iteration_order iter ->
  let E := sum_env turns (zero_product lone) (1 / 100) (1 # 10000000000) n eprec fuel debug
    (fun _ _ => Err RuntimeError) (fun _ => Err RuntimeError) (fun _ => Err RuntimeError) false false in
  let search s reRan imRan c := calculateRoots demo_f None (0, 0)%Z (argument_algorithm E Simple depth info s) reRan imRan None c in
  let out1 := search new_estimator (0, 0)%Q (0, 0)%Q (rc_init None (3, 3)%Z) in
  let out2 := search (leaves E depth first_x new_estimator) (0, 13 # 10)%Q (0, 1 # 10)%Q (fst out1) in
  let alone := search new_estimator (0, 13 # 10)%Q (0, 1 # 10)%Q (rc_init None (3, 3)%Z) in
  (snd out1 = Ok tt /\ snd out2 = Ok tt /\ reported_pairs iter (fst out2) = []) /\
  snd alone = Ok tt /\
  exists c, In (c, 1%Z) (reported_pairs iter (fst alone)) /\ within 1 (1, 1)%Z c (IZR 52 / 60, IZR 4 / 60).
Proof. exact second_search_loses. Qed.
Print Assumptions C71_second_search_refuted.

(** The witness: what is requested and what is resolved. *)
Example C71_witness : forall n eps, (1001 <= Z.of_nat n)%Z -> eps <= 1 / 100 ->
  first_x = serial_context demo_f None (0, 0)%Z (0, 0)%Q (0, 0)%Q None /\
  second_x = serial_context demo_f None (0, 0)%Z (0, 13 # 10)%Q (0, 1 # 10)%Q None /\
  resolved (zero_product lone) lone n eps (1, 1)%Z (rect_of second_x) /\ dense n (1, 1)%Z (rect_of second_x) /\
  faithful odd_turns (1 / 2000).
Proof.
  exact (fun n eps H1 H2 => conj eq_refl (conj eq_refl (conj (lone_resolved n eps H1 H2) (conj (lone_dense n H1) odd_turns_faithful)))).
Qed.

(** The condition is met by a search of [1/3, 13/30]^2 followed by the search of C70's example. *)
Example C71_nonvacuous : forall n (depth : nat), (2001 <= Z.of_nat n)%Z ->
  (forall x d, In (x, d) [(other_x, depth)] ->
     no_common_level (cx_precision x) (rect_of x) (search_precision (0, 0)%Z None) (rect_of small_x)) /\
  resolved (zero_product twin) twin n (1 / 2000) (1, 1)%Z (rect_of small_x) /\ dense n (1, 1)%Z (rect_of small_x).
Proof. exact other_then_small. Qed.
