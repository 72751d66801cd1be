(** Property C68: the search of C63 in binary64 arithmetic.

    [rnd64] rounds to the nearest double (C65_binary64); [py_round], [np_round]: Python's and
    numpy's [round] (C67); [tx], [ty]: the floats 10 ** -precision; [k]: the exponent of the
    requested coordinates; the rest as in C63. *)
From Coq Require Import Reals Qreals Qminmax.
From Verif Require Import PyBase Rounding_Model Container_Model Container_Spec Finder_Model Finder_Spec
  Refine_Model Refine_Spec Zeros_Spec Refine_Examples EndToEnd_Model EndToEnd_Spec EndToEnd_Examples
  Float_Model Float_Spec FloatGrid_Model FloatGrid_Spec FloatCont_Model FloatCont_Spec
  FloatEnd_Model FloatEnd_Spec FloatEnd_Examples FloatEnd_Lemmas FloatEnd_Lemmas2.
Open Scope Z_scope.

Theorem C68_serial_search :
  forall S (E : env S) zeros k tx ty depth info s f df dflt reRan imRan prec p sp iter a b,
  let P := search_precision dflt prec in
  let out := fcalculateRoots rnd64 py_round tx ty f df dflt
    (fargument_algorithm rnd64 tx ty E Simple depth info s) reRan imRan prec (rc_init p sp) in
  -1022 <= k -> iteration_order iter ->
  tolerance64 k (fst P) tx -> tolerance64 k (snd P) ty ->
  below (k - 1) reRan -> below (k - 1) imRan ->
  halvings (Qabs (fst reRan - snd reRan) + 4 * pow10 (- fst P)) (fst P) a ->
  halvings (Qabs (fst imRan - snd imRan) + 8 * pow10 (- snd P)) (snd P) b ->
  (a + b + 4 < depth)%nat ->
  reliable64 E zeros tx ty (rect_of (fserial_context rnd64 tx ty f df dflt reRan imRan prec)) ->
  snd out = Ok tt /\
  let pairs := reported_pairs iter (fst out) in
  all_doubles pairs /\
  all_found (5 / 4) P zeros reRan imRan pairs /\
  genuine64 (5 / 4) P P zeros reRan imRan pairs /\
  (separated (5 / 4) P zeros -> orders64 (5 / 4) P P zeros reRan imRan pairs) /\
  (separated (5 / 2) P zeros -> exactly_once (5 / 4) P zeros reRan imRan pairs).
Proof. exact C68_serial_lemma. Qed.
Print Assumptions C68_serial_search.

(** Parallel finder; [st], [e] as in C63. *)
Theorem C68_parallel_search :
  forall S (E : env S) zeros k tx ty depth n (st : rctx -> S) f df dflt reRan imRan prec p sp iter a b,
  let P := search_precision dflt prec in
  let P' := match prec with Some q => q | None => dflt end in
  let x := fserial_context rnd64 tx ty f df dflt reRan imRan prec in
  let jobs := fcreateRootJobs rnd64 n x in
  let outs := map (fun job => fworker_output rnd64 tx ty E Simple depth (st job) job) jobs in
  (1 <= n)%nat -> Z.of_nat n <= 2 ^ 51 -> -900 <= k -> iteration_order iter ->
  tolerance64 k (fst P) tx -> tolerance64 k (snd P) ty ->
  0 <= fst P' <= 22 -> 0 <= snd P' <= 22 ->
  below (k - 1) reRan -> below (k - 1) imRan ->
  halvings (Qabs (fst reRan - snd reRan) + 4 * pow10 (- fst P)) (fst P) a ->
  halvings (Qabs (fst imRan - snd imRan) + 8 * pow10 (- snd P)) (snd P) b ->
  (a + b + 4 < depth)%nat ->
  (forall job, In job jobs -> reliable64 E zeros tx ty (rect_of job)) ->
  forall e info, pool_behaviour outs e ->
    (forall x', e <> PoolRaised x') /\
    let out := fparallel_calculateRoots rnd64 np_round tx ty f dflt reRan imRan prec info e (rc_init p sp) in
    snd out = Ok tt /\
    let pairs := reported_pairs iter (fst out) in
    all_doubles pairs /\
    genuine64 (13 / 20) P' P zeros reRan imRan pairs /\
    (separated (5 / 4) P zeros -> orders64 (13 / 20) P' P zeros reRan imRan pairs) /\
    (forall q, e = PoolDone q ->
       all_found (13 / 20) P' zeros reRan imRan pairs /\
       (separated (13 / 10) P' zeros -> exactly_once (13 / 20) P' zeros reRan imRan pairs)).
Proof. exact C68_parallel_lemma. Qed.
Print Assumptions C68_parallel_search.

(** Correctly rounded powers of ten are admissible tolerances. *)
Theorem C68_powers_of_ten : forall p, p <= 300 -> power_of_ten p (rnd64 (pow10 (- p))).
Proof. exact power_of_ten_rnd64. Qed.
Print Assumptions C68_powers_of_ten.

(** No recursion limit truncates a search silently: it is complete, or RecursionError is
    raised. *)
Theorem C68_any_depth :
  forall S (E : env S) zeros k tx ty depth info s f df dflt reRan imRan prec p sp iter,
  let P := search_precision dflt prec in
  let out := fcalculateRoots rnd64 py_round tx ty f df dflt
    (fargument_algorithm rnd64 tx ty E Simple depth info s) reRan imRan prec (rc_init p sp) in
  -1022 <= k -> iteration_order iter ->
  tolerance64 k (fst P) tx -> tolerance64 k (snd P) ty ->
  below (k - 1) reRan -> below (k - 1) imRan ->
  reliable64 E zeros tx ty (rect_of (fserial_context rnd64 tx ty f df dflt reRan imRan prec)) ->
  snd out = Err RecursionError \/
  (snd out = Ok tt /\
   let pairs := reported_pairs iter (fst out) in
   all_doubles pairs /\
   all_found (5 / 4) P zeros reRan imRan pairs /\
   genuine64 (5 / 4) P P zeros reRan imRan pairs /\
   (separated (5 / 4) P zeros -> orders64 (5 / 4) P P zeros reRan imRan pairs) /\
   (separated (5 / 2) P zeros -> exactly_once (5 / 4) P zeros reRan imRan pairs)).
Proof. exact C68_any_depth_lemma. Qed.
Print Assumptions C68_any_depth.

Theorem C68_parallel_any_depth :
  forall S (E : env S) zeros k tx ty depth n (st : rctx -> S) f df dflt reRan imRan prec p sp iter,
  let P := search_precision dflt prec in
  let P' := match prec with Some q => q | None => dflt end in
  let x := fserial_context rnd64 tx ty f df dflt reRan imRan prec in
  let jobs := fcreateRootJobs rnd64 n x in
  let outs := map (fun job => fworker_output rnd64 tx ty E Simple depth (st job) job) jobs in
  (1 <= n)%nat -> Z.of_nat n <= 2 ^ 51 -> -900 <= k -> iteration_order iter ->
  tolerance64 k (fst P) tx -> tolerance64 k (snd P) ty ->
  0 <= fst P' <= 22 -> 0 <= snd P' <= 22 ->
  below (k - 1) reRan -> below (k - 1) imRan ->
  (forall job, In job jobs -> reliable64 E zeros tx ty (rect_of job)) ->
  forall e info, pool_behaviour outs e ->
    let out := fparallel_calculateRoots rnd64 np_round tx ty f dflt reRan imRan prec info e (rc_init p sp) in
    (forall x', e = PoolRaised x' -> snd out = Err RecursionError) /\
    (forall q, e = PoolDone q ->
       snd out = Ok tt /\
       let pairs := reported_pairs iter (fst out) in
       all_doubles pairs /\
       all_found (13 / 20) P' zeros reRan imRan pairs /\
       genuine64 (13 / 20) P' P zeros reRan imRan pairs /\
       (separated (5 / 4) P zeros -> orders64 (13 / 20) P' P zeros reRan imRan pairs) /\
       (separated (13 / 10) P' zeros -> exactly_once (13 / 20) P' zeros reRan imRan pairs)).
Proof. exact C68_parallel_any_depth_lemma. Qed.
Print Assumptions C68_parallel_any_depth.

(** Whatever the algorithm reports and however it ends: the result is exactly the rounded reports; an interrupt is
    swallowed, every other exception passed on. *)
Theorem C68_interruption :
  forall tx ty f df dflt alg reRan imRan prec p sp iter, iteration_order iter ->
  let run := alg (fserial_context rnd64 tx ty f df dflt reRan imRan prec) in
  let out := fcalculateRoots rnd64 py_round tx ty f df dflt alg reRan imRan prec (rc_init p sp) in
  snd out = match ar_end run with None => Ok tt | Some KeyboardInterrupt => Ok tt | Some e => Err e end /\
  forall c k, In (c, k) (reported_pairs iter (fst out)) <->
    exists info z, In (info, (z, k)) (ar_reports run) /\
      c = (py_round (fst (search_precision dflt prec)) (re z), py_round (snd (search_precision dflt prec)) (im z)).
Proof. exact C68_interruption_lemma. Qed.
Print Assumptions C68_interruption.

(** ** Non-vacuity: all hypotheses met by a search for three zeros. *)
Example C68_nonvacuous :
  tolerance64 2 1 tenth /\
  (below (2 - 1) (2, 0)%Q /\ below (2 - 1) (0, 2)%Q) /\
  reliable64 (exact_env demo_qzeros (1, 1)) demo_zeros tenth tenth (rect_of demo_x64) /\
  (forall job, In job (fcreateRootJobs rnd64 2 demo_x64) ->
     reliable64 (exact_env demo_qzeros (1, 1)) demo_zeros tenth tenth (rect_of job)) /\
  search_precision (0, 0) None = (1, 1) /\
  (halvings (Qabs (2 - 0) + 4 * pow10 (- 1)) 1 5 /\ halvings (Qabs (0 - 2) + 8 * pow10 (- 1)) 1 5) /\
  (separated (5 / 2) (1, 1) demo_zeros /\ separated (13 / 10) (0, 0) demo_zeros) /\
  reported_pairs (fun l => l) (fst (fcalculateRoots rnd64 py_round tenth tenth demo_f None (0, 0)
    (fargument_algorithm rnd64 tenth tenth (exact_env demo_qzeros (1, 1)) Simple 15 (fun _ => true) tt)
    (2, 0)%Q (0, 2)%Q None (rc_init None (3, 3)))) =
  [(rnd64 (4 # 10), rnd64 (3 # 10), 2); (rnd64 (17 # 10), rnd64 (13 # 10), 1)].
Proof.
  exact (conj tenth_tolerance (conj demo_below64
    (conj (demo_reliable64 _ _ _ demo_x64_double)
    (conj (fun job H => demo_reliable64 _ _ _ (demo_jobs64_double job H))
    (conj eq_refl (conj demo_halvings64 (conj demo_separated64 demo_output64))))))).
Qed.
