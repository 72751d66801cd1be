(** The statements of C68, from the sections of FloatEnd_Proofs3 and FloatEnd_Proofs4. *)
From Coq Require Import Reals Qreals Qminmax.
From Verif Require Import PyBase Rounding_Model Container_Model Container_Spec Finder_Model Finder_Spec
  Refine_Model Refine_Spec Zeros_Spec EndToEnd_Model EndToEnd_Spec Float_Model Float_Spec
  FloatGrid_Model FloatGrid_Spec FloatCont_Model FloatCont_Spec
  FloatEnd_Model FloatEnd_Spec FloatEnd_Proofs3 FloatEnd_Proofs4 FloatEnd_Examples.
Open Scope Z_scope.

Lemma C68_serial_lemma :
  forall S (E : env S) zeros k tx ty depth info s f df dflt reRan imRan prec p sp iter a b,
  let P := search_precision dflt prec in
  let out := fcalculateRoots rnd64 py_round tx ty f df dflt
    (fargument_algorithm rnd64 tx ty E Simple depth info s) reRan imRan prec (rc_init p sp) in
  -1022 <= k -> iteration_order iter ->
  tolerance64 k (fst P) tx -> tolerance64 k (snd P) ty ->
  below (k - 1) reRan -> below (k - 1) imRan ->
  halvings (Qabs (fst reRan - snd reRan) + 4 * pow10 (- fst P)) (fst P) a ->
  halvings (Qabs (fst imRan - snd imRan) + 8 * pow10 (- snd P)) (snd P) b ->
  (a + b + 4 < depth)%nat ->
  reliable64 E zeros tx ty (rect_of (fserial_context rnd64 tx ty f df dflt reRan imRan prec)) ->
  snd out = Ok tt /\
  let pairs := reported_pairs iter (fst out) in
  all_doubles pairs /\
  all_found (5 / 4) P zeros reRan imRan pairs /\
  genuine64 (5 / 4) P P zeros reRan imRan pairs /\
  (separated (5 / 4) P zeros -> orders64 (5 / 4) P P zeros reRan imRan pairs) /\
  (separated (5 / 2) P zeros -> exactly_once (5 / 4) P zeros reRan imRan pairs).
Proof.
  intros S E zeros k tx ty depth info s f df dflt reRan imRan prec p sp iter a b P out Hk HI T1 T2 B1 B2 Ha Hb Hd HR.
  exact (serial64 E zeros k tx ty depth info s f df dflt reRan imRan prec p sp iter a b HI
    (tolerance_scale _ _ _ Hk T1) (tolerance_scale _ _ _ Hk T2) B1 B2 Ha Hb Hd HR).
Qed.

Lemma C68_parallel_lemma :
  forall S (E : env S) zeros k tx ty depth n (st : rctx -> S) f df dflt reRan imRan prec p sp iter a b,
  let P := search_precision dflt prec in
  let P' := match prec with Some q => q | None => dflt end in
  let x := fserial_context rnd64 tx ty f df dflt reRan imRan prec in
  let jobs := fcreateRootJobs rnd64 n x in
  let outs := map (fun job => fworker_output rnd64 tx ty E Simple depth (st job) job) jobs in
  (1 <= n)%nat -> Z.of_nat n <= 2 ^ 51 -> -900 <= k -> iteration_order iter ->
  tolerance64 k (fst P) tx -> tolerance64 k (snd P) ty ->
  0 <= fst P' <= 22 -> 0 <= snd P' <= 22 ->
  below (k - 1) reRan -> below (k - 1) imRan ->
  halvings (Qabs (fst reRan - snd reRan) + 4 * pow10 (- fst P)) (fst P) a ->
  halvings (Qabs (fst imRan - snd imRan) + 8 * pow10 (- snd P)) (snd P) b ->
  (a + b + 4 < depth)%nat ->
  (forall job, In job jobs -> reliable64 E zeros tx ty (rect_of job)) ->
  forall e info, pool_behaviour outs e ->
    (forall x', e <> PoolRaised x') /\
    let out := fparallel_calculateRoots rnd64 np_round tx ty f dflt reRan imRan prec info e (rc_init p sp) in
    snd out = Ok tt /\
    let pairs := reported_pairs iter (fst out) in
    all_doubles pairs /\
    genuine64 (13 / 20) P' P zeros reRan imRan pairs /\
    (separated (5 / 4) P zeros -> orders64 (13 / 20) P' P zeros reRan imRan pairs) /\
    (forall q, e = PoolDone q ->
       all_found (13 / 20) P' zeros reRan imRan pairs /\
       (separated (13 / 10) P' zeros -> exactly_once (13 / 20) P' zeros reRan imRan pairs)).
Proof.
  intros S E zeros k tx ty depth n st f df dflt reRan imRan prec p sp iter a b P P' x jobs outs
    Hn Hn2 Hk HI T1 T2 N1 N2 B1 B2 Ha Hb Hd HR e info HB.
  assert (Hk2 : -1022 <= k) by lia.
  exact (parallel64 E zeros k tx ty depth n st f df dflt reRan imRan prec p sp iter a b Hn Hn2 Hk HI
    (tolerance_scale _ _ _ Hk2 T1) (tolerance_scale _ _ _ Hk2 T2) N1 N2 B1 B2 Ha Hb Hd HR e info HB).
Qed.
