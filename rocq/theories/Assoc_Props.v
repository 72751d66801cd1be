(** * Property C76: whole searches of the associated-polynomial algorithm

    The derivative is given, as the algorithm demands.  First for any estimator that counts
    the zeros of each cell correctly and computes the power sums up to an error [d], then for
    the quadrature estimator (the summation estimator does not compute higher moments).
    [e]: backward error of the polynomial solver (an oracle); [rho]: see Assoc_Spec.v. *)
From Coq Require Import Reals Qreals Qminmax.
From Verif Require Import PyBase Rounding_Model Container_Model Container_Spec Finder_Model Finder_Spec
  Refine_Model Refine_Spec Zeros_Spec Cache_Model Sum_Model Sum_Spec Quad_Model Quad_Spec Arg_Spec Moment_Spec
  EndToEnd_Model EndToEnd_Spec Refine_Examples EndToEnd_Examples Whole_Examples Qsearch_Model Qsearch_Spec Qsearch_Examples
  Assoc_Spec Assoc_Proofs3 Assoc_Proofs4 Assoc_Examples.
Open Scope R_scope.

(** A search raises RecursionError, or finds the zeros and nothing else; well separated
    zeros with their orders, once each. *)
Theorem C76_serial :
  forall S (E : env S) B d e rho zeros depth info s f df dflt reRan imRan prec p sp iter,
  let P := search_precision dflt prec in
  let r := rect_of (serial_context f (Some df) dflt reRan imRan prec) in
  let out := calculateRoots f (Some df) dflt (argument_algorithm E PolyV depth info s) reRan imRan prec (rc_init p sp) in
  iteration_order iter -> reliable E zeros P r -> resolvable B d e rho E zeros P r ->
  snd out = Err RecursionError \/
  (snd out = Ok tt /\
   let pairs := reported_pairs iter (fst out) in
   all_found 2 P zeros reRan imRan pairs /\
   all_genuine 2 P P zeros reRan imRan pairs /\
   (separated 2 P zeros ->
      all_found 1 P zeros reRan imRan pairs /\
      all_genuine 1 P P zeros reRan imRan pairs /\
      orders_right 1 P P zeros reRan imRan pairs /\
      exactly_once 1 P zeros reRan imRan pairs)).
Proof. exact (fun S E B d e rho zeros depth info s f df dflt reRan imRan prec p sp iter HI => C76_serial_lemma E B d e rho zeros depth f df dflt reRan imRan prec p sp iter HI info s). Qed.
Print Assumptions C76_serial.

(** With enough recursion depth it succeeds. *)
Theorem C76_complete :
  forall S (E : env S) B d e rho zeros depth info s f df dflt reRan imRan prec p sp iter a b,
  let P := search_precision dflt prec in
  let r := rect_of (serial_context f (Some df) dflt reRan imRan prec) in
  let out := calculateRoots f (Some df) dflt (argument_algorithm E PolyV depth info s) reRan imRan prec (rc_init p sp) in
  iteration_order iter -> reliable E zeros P r -> resolvable B d e rho E zeros P r ->
  halvings (Qabs (fst reRan - snd reRan) + 3 * pow10 (- fst P)) (fst P) a ->
  halvings (Qabs (fst imRan - snd imRan) + 7 * pow10 (- snd P)) (snd P) b ->
  (a + b < depth)%nat ->
  (snd out = Ok tt /\
   let pairs := reported_pairs iter (fst out) in
   all_found 2 P zeros reRan imRan pairs /\
   all_genuine 2 P P zeros reRan imRan pairs /\
   (separated 2 P zeros ->
      all_found 1 P zeros reRan imRan pairs /\
      all_genuine 1 P P zeros reRan imRan pairs /\
      orders_right 1 P P zeros reRan imRan pairs /\
      exactly_once 1 P zeros reRan imRan pairs)).
Proof. exact (fun S E B d e rho zeros depth info s f df dflt reRan imRan prec p sp iter a b HI => C76_complete_lemma E B d e rho zeros depth f df dflt reRan imRan prec p sp iter HI info s a b). Qed.
Print Assumptions C76_complete.

(** The parallel finder, [m * m] jobs, in any schedule. *)
Theorem C76_parallel :
  forall S (E : env S) B d e rho zeros m depth (st : rctx -> S) f df dflt reRan imRan prec p sp iter,
  let P := search_precision dflt prec in
  let P' := match prec with Some q => q | None => dflt end in
  let jobs := createRootJobs m (serial_context f (Some df) dflt reRan imRan prec) in
  let outs := map (fun job => worker_output E PolyV depth (st job) job) jobs in
  (1 <= m)%nat -> iteration_order iter ->
  (forall job, In job jobs -> reliable E zeros P (rect_of job) /\ resolvable B d e rho E zeros P (rect_of job)) ->
  forall ev info, pool_behaviour outs ev ->
    let out := parallel_calculateRoots f dflt reRan imRan prec info ev (rc_init p sp) in
    (forall x', ev = PoolRaised x' -> snd out = Err RecursionError) /\
    (forall q, ev = PoolDone q ->
       snd out = Ok tt /\
       let pairs := reported_pairs iter (fst out) in
       all_found (13 / 20) P' zeros reRan imRan pairs /\
       all_genuine (13 / 20) P' P zeros reRan imRan pairs /\
       (separated 2 P zeros ->
          all_found (11 / 20) P' zeros reRan imRan pairs /\
          all_genuine (11 / 20) P' P zeros reRan imRan pairs /\
          orders_right (11 / 20) P' P zeros reRan imRan pairs) /\
       (separated (11 / 10) P' zeros -> exactly_once (11 / 20) P' zeros reRan imRan pairs)).
Proof. exact (fun S E B d e rho zeros m depth st f df dflt reRan imRan prec p sp iter Hm HI HR => C76_parallel_lemma E B d e rho zeros depth f df dflt reRan imRan prec p sp iter HI m st Hm HR). Qed.
Print Assumptions C76_parallel.

Theorem C76_parallel_complete :
  forall S (E : env S) B d e rho zeros m depth (st : rctx -> S) f df dflt reRan imRan prec p sp iter,
  let P := search_precision dflt prec in
  let P' := match prec with Some q => q | None => dflt end in
  let jobs := createRootJobs m (serial_context f (Some df) dflt reRan imRan prec) in
  let outs := map (fun job => worker_output E PolyV depth (st job) job) jobs in
  (1 <= m)%nat -> iteration_order iter ->
  (forall job, In job jobs -> reliable E zeros P (rect_of job) /\ resolvable B d e rho E zeros P (rect_of job)) ->
  forall a b ev info,
  halvings (Qabs (fst reRan - snd reRan) + 3 * pow10 (- fst P)) (fst P) a ->
  halvings (Qabs (fst imRan - snd imRan) + 7 * pow10 (- snd P)) (snd P) b ->
  (a + b < depth)%nat -> pool_behaviour outs ev ->
  (forall x', ev <> PoolRaised x') /\
  let out := parallel_calculateRoots f dflt reRan imRan prec info ev (rc_init p sp) in
  snd out = Ok tt /\
  let pairs := reported_pairs iter (fst out) in
  all_genuine (13 / 20) P' P zeros reRan imRan pairs /\
  (separated 2 P zeros ->
     all_genuine (11 / 20) P' P zeros reRan imRan pairs /\ orders_right (11 / 20) P' P zeros reRan imRan pairs) /\
  (forall q, ev = PoolDone q ->
     all_found (13 / 20) P' zeros reRan imRan pairs /\
     (separated 2 P zeros -> all_found (11 / 20) P' zeros reRan imRan pairs) /\
     (separated (11 / 10) P' zeros -> exactly_once (11 / 20) P' zeros reRan imRan pairs)).
Proof. exact (fun S E B d e rho zeros m depth st f df dflt reRan imRan prec p sp iter Hm HI HR => C76_parallel_complete_lemma E B d e rho zeros depth f df dflt reRan imRan prec p sp iter HI m st Hm HR). Qed.
Print Assumptions C76_parallel_complete.

(** ** With the quadrature estimator, in any state

    Its moments are off by at most 8 [eps] + 2 [e0], where [e0] is the error of Romberg's
    rule on one side and [eps] the rounding of an angle. *)
Theorem C76_quadrature_serial :
  forall F DF zeros turns eps e0 B e rho eprec fuel debug secant newton polyroots has_df progress,
  converts turns eps -> eps <= 1 / 25 -> (2 <= fuel)%nat ->
  forall depth info s f df dflt reRan imRan prec p sp iter,
  let E := quad_env turns romberg (called F) (Some (called DF)) eprec fuel debug secant newton polyroots has_df progress in
  let P := search_precision dflt prec in
  let r := rect_of (serial_context f (Some df) dflt reRan imRan prec) in
  let out := calculateRoots f (Some df) dflt (argument_algorithm E PolyV depth info s) reRan imRan prec (rc_init p sp) in
  iteration_order iter -> quad_moments_resolved e0 F DF zeros P r -> solvable B (8 * eps + 2 * e0) e rho polyroots zeros P r ->
  snd out = Err RecursionError \/
  (snd out = Ok tt /\
   let pairs := reported_pairs iter (fst out) in
   all_found 2 P zeros reRan imRan pairs /\
   all_genuine 2 P P zeros reRan imRan pairs /\
   (separated 2 P zeros ->
      all_found 1 P zeros reRan imRan pairs /\
      all_genuine 1 P P zeros reRan imRan pairs /\
      orders_right 1 P P zeros reRan imRan pairs /\
      exactly_once 1 P zeros reRan imRan pairs)).
Proof. exact (fun F DF zeros turns eps e0 B e rho eprec fuel debug secant newton polyroots has_df progress H1 H2 H3 depth info s f df dflt reRan imRan prec p sp iter HI => C76_quad_serial_lemma F DF zeros turns eps e0 B e rho eprec fuel debug secant newton polyroots has_df progress H1 H2 H3 depth f df dflt reRan imRan prec p sp iter HI info s). Qed.
Print Assumptions C76_quadrature_serial.

Theorem C76_quadrature_complete :
  forall F DF zeros turns eps e0 B e rho eprec fuel debug secant newton polyroots has_df progress,
  converts turns eps -> eps <= 1 / 25 -> (2 <= fuel)%nat ->
  forall depth info s f df dflt reRan imRan prec p sp iter a b,
  let E := quad_env turns romberg (called F) (Some (called DF)) eprec fuel debug secant newton polyroots has_df progress in
  let P := search_precision dflt prec in
  let r := rect_of (serial_context f (Some df) dflt reRan imRan prec) in
  let out := calculateRoots f (Some df) dflt (argument_algorithm E PolyV depth info s) reRan imRan prec (rc_init p sp) in
  iteration_order iter -> quad_moments_resolved e0 F DF zeros P r -> solvable B (8 * eps + 2 * e0) e rho polyroots zeros P r ->
  halvings (Qabs (fst reRan - snd reRan) + 3 * pow10 (- fst P)) (fst P) a ->
  halvings (Qabs (fst imRan - snd imRan) + 7 * pow10 (- snd P)) (snd P) b ->
  (a + b < depth)%nat ->
  (snd out = Ok tt /\
   let pairs := reported_pairs iter (fst out) in
   all_found 2 P zeros reRan imRan pairs /\
   all_genuine 2 P P zeros reRan imRan pairs /\
   (separated 2 P zeros ->
      all_found 1 P zeros reRan imRan pairs /\
      all_genuine 1 P P zeros reRan imRan pairs /\
      orders_right 1 P P zeros reRan imRan pairs /\
      exactly_once 1 P zeros reRan imRan pairs)).
Proof. exact (fun F DF zeros turns eps e0 B e rho eprec fuel debug secant newton polyroots has_df progress H1 H2 H3 depth info s f df dflt reRan imRan prec p sp iter a b HI => C76_quad_complete_lemma F DF zeros turns eps e0 B e rho eprec fuel debug secant newton polyroots has_df progress H1 H2 H3 depth f df dflt reRan imRan prec p sp iter HI info s a b). Qed.
Print Assumptions C76_quadrature_complete.

Theorem C76_quadrature_parallel :
  forall F DF zeros turns eps e0 B e rho eprec fuel debug secant newton polyroots has_df progress,
  converts turns eps -> eps <= 1 / 25 -> (2 <= fuel)%nat ->
  forall m depth (st : rctx -> ecache * unit) f df dflt reRan imRan prec p sp iter,
  let E := quad_env turns romberg (called F) (Some (called DF)) eprec fuel debug secant newton polyroots has_df progress in
  let P := search_precision dflt prec in
  let P' := match prec with Some q => q | None => dflt end in
  let jobs := createRootJobs m (serial_context f (Some df) dflt reRan imRan prec) in
  let outs := map (fun job => worker_output E PolyV depth (st job) job) jobs in
  (1 <= m)%nat -> iteration_order iter ->
  (forall job, In job jobs -> quad_moments_resolved e0 F DF zeros P (rect_of job) /\
     solvable B (8 * eps + 2 * e0) e rho polyroots zeros P (rect_of job)) ->
  forall ev info, pool_behaviour outs ev ->
    let out := parallel_calculateRoots f dflt reRan imRan prec info ev (rc_init p sp) in
    (forall x', ev = PoolRaised x' -> snd out = Err RecursionError) /\
    (forall q, ev = PoolDone q ->
       snd out = Ok tt /\
       let pairs := reported_pairs iter (fst out) in
       all_found (13 / 20) P' zeros reRan imRan pairs /\
       all_genuine (13 / 20) P' P zeros reRan imRan pairs /\
       (separated 2 P zeros ->
          all_found (11 / 20) P' zeros reRan imRan pairs /\
          all_genuine (11 / 20) P' P zeros reRan imRan pairs /\
          orders_right (11 / 20) P' P zeros reRan imRan pairs) /\
       (separated (11 / 10) P' zeros -> exactly_once (11 / 20) P' zeros reRan imRan pairs)).
Proof. exact (fun F DF zeros turns eps e0 B e rho eprec fuel debug secant newton polyroots has_df progress H1 H2 H3 m depth st f df dflt reRan imRan prec p sp iter Hm HI HR => C76_quad_parallel_lemma F DF zeros turns eps e0 B e rho eprec fuel debug secant newton polyroots has_df progress H1 H2 H3 depth f df dflt reRan imRan prec p sp iter HI m st Hm HR). Qed.
Print Assumptions C76_quadrature_parallel.

Theorem C76_quadrature_parallel_complete :
  forall F DF zeros turns eps e0 B e rho eprec fuel debug secant newton polyroots has_df progress,
  converts turns eps -> eps <= 1 / 25 -> (2 <= fuel)%nat ->
  forall m depth (st : rctx -> ecache * unit) f df dflt reRan imRan prec p sp iter,
  let E := quad_env turns romberg (called F) (Some (called DF)) eprec fuel debug secant newton polyroots has_df progress in
  let P := search_precision dflt prec in
  let P' := match prec with Some q => q | None => dflt end in
  let jobs := createRootJobs m (serial_context f (Some df) dflt reRan imRan prec) in
  let outs := map (fun job => worker_output E PolyV depth (st job) job) jobs in
  (1 <= m)%nat -> iteration_order iter ->
  (forall job, In job jobs -> quad_moments_resolved e0 F DF zeros P (rect_of job) /\
     solvable B (8 * eps + 2 * e0) e rho polyroots zeros P (rect_of job)) ->
  forall a b ev info,
  halvings (Qabs (fst reRan - snd reRan) + 3 * pow10 (- fst P)) (fst P) a ->
  halvings (Qabs (fst imRan - snd imRan) + 7 * pow10 (- snd P)) (snd P) b ->
  (a + b < depth)%nat -> pool_behaviour outs ev ->
  (forall x', ev <> PoolRaised x') /\
  let out := parallel_calculateRoots f dflt reRan imRan prec info ev (rc_init p sp) in
  snd out = Ok tt /\
  let pairs := reported_pairs iter (fst out) in
  all_genuine (13 / 20) P' P zeros reRan imRan pairs /\
  (separated 2 P zeros ->
     all_genuine (11 / 20) P' P zeros reRan imRan pairs /\ orders_right (11 / 20) P' P zeros reRan imRan pairs) /\
  (forall q, ev = PoolDone q ->
     all_found (13 / 20) P' zeros reRan imRan pairs /\
     (separated 2 P zeros -> all_found (11 / 20) P' zeros reRan imRan pairs) /\
     (separated (11 / 10) P' zeros -> exactly_once (11 / 20) P' zeros reRan imRan pairs)).
Proof. exact (fun F DF zeros turns eps e0 B e rho eprec fuel debug secant newton polyroots has_df progress H1 H2 H3 m depth st f df dflt reRan imRan prec p sp iter Hm HI HR => C76_quad_parallel_complete_lemma F DF zeros turns eps e0 B e rho eprec fuel debug secant newton polyroots has_df progress H1 H2 H3 depth f df dflt reRan imRan prec p sp iter HI m st Hm HR). Qed.
Print Assumptions C76_quadrature_parallel_complete.

(** The hypothesis on the integration, for polynomials: zeros and points of [r] are bounded by
    [A], the sides of [r] by [L], and no zero comes closer to a side of a cell than [k] times
    the longer side of it. *)
Theorem C76_polynomial :
  forall lead zeros P r k A L,
  lead <> (0, 0) -> (x1 r < x2 r)%Q -> (y1 r < y2 r)%Q -> 0 < k -> well_inside k zeros P r ->
  1 <= A -> (forall w, In w zeros \/ zin r w -> Rabs (fst w) + Rabs (snd w) <= A) ->
  Q2R (x2 r) - Q2R (x1 r) <= L -> Q2R (y2 r) - Q2R (y1 r) <= L ->
  let e := INR (List.length zeros) * A ^ 3 * (1 / k ^ 3 + 9 * L ^ 3) / 4 ^ 10 in
  e < 1 / 2000 ->
  quad_moments_resolved e (fun p => times lead (product_of zeros p)) (fun p => times lead (derivative_of zeros p)) zeros P r.
Proof. exact C76_polynomial_lemma. Qed.
Print Assumptions C76_polynomial.

(** It is not enough that the moments are accurate to the tolerance: even with an exact
    polynomial solver a root reported for a double zero may then be too far from it. *)
Theorem C76_conditioning_refuted :
  exists (E : env unit) zeros depth f df dflt reRan imRan,
  let P := search_precision dflt None in
  let r := rect_of (serial_context f (Some df) dflt reRan imRan None) in
  let out := calculateRoots f (Some df) dflt (argument_algorithm E PolyV depth (fun _ => true) tt) reRan imRan None (rc_init None dflt) in
  reliable E zeros P r /\ moments_within (Q2R (pow10 (- fst P))) E zeros P r /\ fst P = snd P /\
  (forall p ws, e_polyroots E p = Ok ws -> close 0 p (coefficients_of (map real_point ws))) /\
  separated 2 P zeros /\ snd out = Ok tt /\
  exists c k, In (c, k) (reported_pairs (fun l => l) (fst out)) /\ forall z, In z zeros -> ~ within 1 P c z.
Proof. exact C76_conditioning_refuted_lemma. Qed.
Print Assumptions C76_conditioning_refuted.

(** The hypotheses are met by a search for a double and a simple zero, with moments off by
    1e-10, and by one with the quadrature estimator for a zero at (1 + i) / 30. *)
Example C76_nonvacuous : forall depth s iter, (12 < depth)%nat -> iteration_order iter ->
  let E := moment_env (1, 1)%Z in
  reliable E demo_zeros (1, 1)%Z (rect_of assoc_x) /\
  resolvable 3 dd (81 * dd) (1 / 25) E demo_zeros (1, 1)%Z (rect_of assoc_x) /\
  separated 2 (1, 1)%Z demo_zeros /\
  let out := calculateRoots demo_f (Some demo_f) (0, 0)%Z (argument_algorithm E PolyV depth (fun _ => true) s)
    (2, 0)%Q (0, 2)%Q None (rc_init None (3, 3)%Z) in
  snd out = Ok tt /\
  (exists c, In (c, 2%Z) (reported_pairs iter (fst out)) /\ within 1 (1, 1)%Z c (qpoint zd)) /\
  (exists c, In (c, 1%Z) (reported_pairs iter (fst out)) /\ within 1 (1, 1)%Z c (qpoint zs1)).
Proof.
  exact (fun depth s iter Hd HI => conj (moment_reliable _ _ demo_x_decimal)
    (conj (conj (moment_within _ _) (demo_solvable _)) (conj demo_separated (assoc_search depth s iter Hd HI)))).
Qed.
Example C76_quadrature_nonvacuous : forall fuel depth debug s0 iter,
  (2 <= fuel)%nat -> (8 < depth)%nat -> iteration_order iter ->
  converts odd_turns (1 / 2000) /\
  quad_moments_resolved e30 one_f one_df one30 (1, 1)%Z (rect_of small_df) /\
  solvable 1 (8 * (1 / 2000) + 2 * e30) d30 (1 / 25) linear_solver one30 (1, 1)%Z (rect_of small_df) /\
  let E := quad_env odd_turns romberg (called one_f) (Some (called one_df)) (1, 1)%Z fuel debug
    (fun _ _ => Err RuntimeError) (fun _ => Err RuntimeError) linear_solver true false in
  let out := calculateRoots demo_f (Some demo_f) (0, 0)%Z (argument_algorithm E PolyV depth (fun _ => true) s0)
    (0, 1 # 10)%Q (0, 1 # 10)%Q None (rc_init None (3, 3)%Z) in
  snd out = Ok tt /\
  exists c, In (c, 1%Z) (reported_pairs iter (fst out)) /\ within 1 (1, 1)%Z c (1 / 30, 1 / 30).
Proof.
  exact (fun fuel depth debug s0 iter Hf Hd HI => conj odd_converts (conj one_resolved (conj (one_solvable _)
    (one_search fuel depth debug s0 iter Hf Hd HI)))).
Qed.
