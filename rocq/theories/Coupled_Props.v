(** * Property C77: searches with filters that raise

    [search_into]: a serial search in which every zero goes through the filters and into the
    container at the moment it is found. *)
From Verif Require Import PyBase Rounding_Model Container_Model Container_Spec Finder_Model Finder_Spec
  Refine_Model Refine_Spec EndToEnd_Model Coupled_Model Coupled_Spec Coupled_Proofs2 Coupled_Examples.
Open Scope Z_scope.

(** The first exception of a filter ends the search and reaches the caller (a
    KeyboardInterrupt: a normal return); what was found before is stored, nothing else.
    Newton-assisted algorithm: unless it is a RuntimeError. *)
Theorem C77_exception_reaches_caller :
  forall S (E : env S) v depth info s f df dflt reRan imRan prec p sp h,
  let x := serial_context f df dflt reRan imRan prec in
  let ctx := toFilterContext x in
  let c := rc_run h (rc_init p sp) in
  let reports := ar_reports (argument_algorithm E v depth info s x) in
  (v = NewtonV -> forall k q r e, registered h k q -> q r ctx = Err e -> ~ is_RuntimeError e) ->
  forall before i r after e,
  reports = before ++ (i, r) :: after ->
  (forall j s, In (j, s) before -> filters_total h s ctx) ->
  (forall k q, registered h k q -> q r ctx = Ok true \/ q r ctx = Err e) ->
  (exists k q, registered h k q /\ q r ctx = Err e) ->
  search_into E v depth info s f df dflt reRan imRan prec c =
  (rc_run (h ++ map (fun a => RAdd (fst a) (snd a) ctx) before) (rc_init p sp),
   match e with KeyboardInterrupt => Ok tt | _ => Err e end).
Proof. exact @C77_caller_lemma. Qed.
Print Assumptions C77_exception_reaches_caller.

(** Without raising filters, searching and then storing is the same: the theorems on whole
    searches (C63, C70, C74, C75, C76) hold of [search_into]. *)
Theorem C77_storing_at_once :
  forall S (E : env S) v depth info s f df dflt reRan imRan prec p sp h,
  let ctx := toFilterContext (serial_context f df dflt reRan imRan prec) in
  let c := rc_run h (rc_init p sp) in
  (v = NewtonV -> forall k q r e, registered h k q -> q r ctx = Err e -> ~ is_RuntimeError e) ->
  search_into E v depth info s f df dflt reRan imRan prec c =
  calculateRoots f df dflt (argument_algorithm E v depth info s) reRan imRan prec c.
Proof.
  intros S E v depth info s f df dflt reRan imRan prec p sp h ctx c Q. apply search_into_eq.
  intros Hv r e R. apply registered_raise in R. destruct R as (k & q & R1 & R2). exact (Q Hv k q r e R1 R2).
Qed.
Print Assumptions C77_storing_at_once.

(** With the Newton-assisted algorithm, a RuntimeError of a filter on the result of an
    iteration has the effect of an iteration that gives up: the zero is lost, the search goes
    on, the caller is not told. *)
Theorem C77_newton_swallows_runtime_errors :
  forall S (E : env S) depth info s f df dflt reRan imRan prec c secant newton,
  let ctx := toFilterContext (serial_context f df dflt reRan imRan prec) in
  silenced c ctx (fun ab => e_secant E (fst ab) (snd ab)) (fun ab => secant (fst ab) (snd ab)) ->
  silenced c ctx (e_newton E) newton ->
  search_into E NewtonV depth info s f df dflt reRan imRan prec c =
  calculateRoots f df dflt (argument_algorithm (with_iterations E secant newton) NewtonV depth info s) reRan imRan prec c.
Proof. exact @C77_newton_lemma. Qed.
Print Assumptions C77_newton_swallows_runtime_errors.

(** Such iterations exist for every container. *)
Theorem C77_silenced_iteration_exists :
  forall A c ctx (g : A -> res cplx), exists g', silenced c ctx g g'.
Proof. intros A c ctx g. eexists. apply Coupled_Proofs2.censor_silenced. Qed.
Print Assumptions C77_silenced_iteration_exists.

(** That every exception of a filter reaches the caller is false. *)
Theorem C77_every_exception_reaches_caller_refuted :
  exists (E : env unit) f reRan imRan h r q,
  let x := serial_context f None (2, 2) reRan imRan None in
  let c := rc_run h (rc_init None (2, 2)) in
  registered h "user"%string q /\ (forall a ctx, q a ctx = Err RuntimeError) /\
  ar_reports (argument_algorithm E NewtonV 40 (fun _ => false) tt x) = [(false, r)] /\
  search_into E NewtonV 40 (fun _ => false) tt f None (2, 2) reRan imRan None c = (c, Ok tt) /\
  search_into E Simple 40 (fun _ => false) tt f None (2, 2) reRan imRan None c = (c, Err RuntimeError).
Proof.
  exists boom_env, boom_f, (0, 1 # 1000)%Q, (0, 1 # 1000)%Q, boom_history, ((1 # 3000, 1 # 3000)%Q, 1), boom.
  split; [exists [], []; auto|]. split; [reflexivity|]. split; [exact boom_reports|].
  split; [exact boom_newton|exact boom_simple].
Qed.
Print Assumptions C77_every_exception_reaches_caller_refuted.

(** The parallel finder asks the filters when it empties the queue: every exception, even a
    KeyboardInterrupt, reaches the caller; what was taken from the queue before is stored. *)
Theorem C77_parallel_exception_reaches_caller :
  forall f dflt reRan imRan prec info p sp h,
  let ctx := drain_context f dflt reRan imRan prec in
  let c := rc_run h (rc_init p sp) in
  forall ev queue before r after e,
  ev = PoolDone queue \/ ev = PoolInterrupted queue ->
  queue = before ++ r :: after ->
  (forall s, In s before -> filters_total h s ctx) ->
  (forall k q, registered h k q -> q r ctx = Ok true \/ q r ctx = Err e) ->
  (exists k q, registered h k q /\ q r ctx = Err e) ->
  parallel_calculateRoots f dflt reRan imRan prec info ev c =
  (rc_run (h ++ map (fun a => RAdd info a ctx) before) (rc_init p sp), Err e).
Proof. exact C77_parallel_lemma. Qed.
Print Assumptions C77_parallel_exception_reaches_caller.

(** Non-vacuity: a filter that accepts nothing but raises; the first report strikes. *)
Example C77_nonvacuous :
  let x := serial_context boom_f None (2, 2) (0, 1 # 1000)%Q (0, 1 # 1000)%Q None in
  let ctx := toFilterContext x in
  exists r, ar_reports (argument_algorithm boom_env Simple 40 (fun _ => false) tt x) = [(false, r)] /\
  (exists k q, registered boom_history k q /\ q r ctx = Err RuntimeError) /\
  search_into boom_env Simple 40 (fun _ => false) tt boom_f None (2, 2) (0, 1 # 1000)%Q (0, 1 # 1000)%Q None
    (rc_run boom_history (rc_init None (2, 2))) = (rc_run boom_history (rc_init None (2, 2)), Err RuntimeError).
Proof.
  destruct boom_simple_reports as [r H]. exists r. split; [exact H|].
  split; [exists "user"%string, boom; split; [exists [], []; auto|reflexivity]|exact boom_simple].
Qed.
