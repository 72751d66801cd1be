(** * Property C56: factories *)
From Verif Require Import PyBase Json_Model Settings_Model Settings_Spec Settings_Proofs3 Factory_Model Factory_Spec Factory_Proofs.
Open Scope Z_scope.

(** A request for a type yields the implementation of this type if it is a concrete one (whatever the
    settings), else that of the configured default. *)
Theorem C56_container_request : forall depth ready s v p q, has_level s -> (2 <= depth)%nat ->
  concrete_container (meant concrete_container KContainer s v) = true ->
  exists o, getConcreteContainer depth ready (Ok s) v p q = Ok o /\ container_type o = meant concrete_container KContainer s v /\
    match o with RoundingC p' => p' = if truthy p then p else get KPrecision s | PlainC q' => q' = q end.
Proof. exact container_request. Qed.
Print Assumptions C56_container_request.
Theorem C56_estimator_request : forall depth ready s v c a b d, has_level s -> (2 <= depth)%nat ->
  concrete_estimator (meant concrete_estimator KEstimator s v) = true ->
  exists o, getConcreteEstimator depth ready (Ok s) v c (Some a) (Some b) (Some d) = Ok o /\
    estimator_type o = meant concrete_estimator KEstimator s v /\ estimator_cache o = c /\
    match o with SumE a' b' d' _ => a' = a /\ b' = b /\ d' = d | QuadE _ => True end.
Proof. exact estimator_request. Qed.
Print Assumptions C56_estimator_request.
Theorem C56_estimator_missing_parameters : forall depth ready s v c a b d, has_level s -> (2 <= depth)%nat ->
  meant concrete_estimator KEstimator s v = VEstimator SUMMATION_ESTIMATOR -> a = None \/ b = None \/ d = None ->
  getConcreteEstimator depth ready (Ok s) v c a b d = Err ValueError.
Proof. exact estimator_missing_parameters. Qed.
Print Assumptions C56_estimator_missing_parameters.
Theorem C56_algorithm_request : forall depth ready s c v et n, has_level s -> (4 <= depth)%nat ->
  let a := meant concrete_algorithm KAlgorithm s v in
  let e := meant concrete_estimator KEstimator s et in
  concrete_algorithm a = true -> (a <> VAlgorithm NEWTON_GRID -> concrete_estimator e = true) ->
  exists o, getConcreteAlgorithm depth ready (Ok s) c v et n = Ok o /\ algorithm_type o = a /\
    match o with
    | NewtonGridA k => k = match n with Some k => if Z.eqb k 0 then 50 else k | None => 50 end
    | SimpleA c' x | SimpleNewtonA c' x | PolynomialA c' x =>
        c' = c /\ estimator_cache x = c' /\ estimator_type x = e /\
        match x with SumE n dp mp _ => n = 6500 /\ dp = 1 # 100 /\ mp = 1 # 10000000000 | QuadE _ => True end
    end.
Proof. exact algorithm_request. Qed.
Print Assumptions C56_algorithm_request.

(** A request that means no concrete type never terminates: RecursionError at every recursion limit. *)
Theorem C56_default_of_default_diverges : forall depth ready s, has_level s ->
  (forall v p q, concrete_container (meant concrete_container KContainer s v) = false ->
     getConcreteContainer depth ready (Ok s) v p q = Err RecursionError) /\
  (forall v c a b d, concrete_estimator (meant concrete_estimator KEstimator s v) = false ->
     getConcreteEstimator depth ready (Ok s) v c a b d = Err RecursionError) /\
  (forall c v et n, concrete_algorithm (meant concrete_algorithm KAlgorithm s v) = false ->
     getConcreteAlgorithm depth ready (Ok s) c v et n = Err RecursionError).
Proof.
  intros depth ready s L. split; [|split].
  - intros v p q. apply container_diverges. exact L.
  - intros v c a b d. apply estimator_diverges. exact L.
  - intros c v et n. apply algorithm_diverges. exact L.
Qed.
Print Assumptions C56_default_of_default_diverges.
(** The settings accept such a default, after which no finder can be created with default arguments. *)
Theorem C56_usable_defaults_refuted : forall k, In k [KContainer; KAlgorithm; KEstimator] ->
  let dflt := match k with KContainer => VContainer DEFAULT_CONTAINER | KAlgorithm => VAlgorithm DEFAULT_ALGORITHM | _ => VEstimator DEFAULT_ESTIMATOR end in
  snd (set_property k dflt service0 fs0) = Ok tt /\
  forall depth c, new_finder depth (settings_init (files_after [(service0, k, dflt)] fs0)) c (VContainer DEFAULT_CONTAINER)
    (VAlgorithm DEFAULT_ALGORITHM) (VEstimator DEFAULT_ESTIMATOR) py_none None None = Err RecursionError.
Proof. exact default_default. Qed.
Print Assumptions C56_usable_defaults_refuted.

(** Explicit arguments of a root finder override the settings; missing ones are taken from them; the
    algorithm and its estimator share one cache; container and finder use the same precision. *)
Theorem C56_finder_construction : forall depth s c ct at_ et p n vb, has_level s -> (4 <= depth)%nat ->
  let k := meant concrete_container KContainer s ct in
  let a := meant concrete_algorithm KAlgorithm s at_ in
  let e := meant concrete_estimator KEstimator s et in
  concrete_container k = true -> concrete_algorithm a = true -> (a <> VAlgorithm NEWTON_GRID -> concrete_estimator e = true) ->
  exists o, new_finder depth (Ok s) c ct at_ et p n vb = Ok o /\
    container_type (o_container o) = k /\ algorithm_type (o_algorithm o) = a /\
    match algorithm_estimator (o_algorithm o) with
    | Some x => estimator_type x = e /\ algorithm_cache (o_algorithm o) = Some (estimator_cache x)
    | None => a = VAlgorithm NEWTON_GRID
    end /\
    o_precision o = (if truthy p then p else get KPrecision s) /\
    match o_container o with RoundingC p' => p' = o_precision o | PlainC _ => True end /\
    o_verbose o = match vb with Some v => v | None => get KVerbose s end.
Proof. exact new_finder_ok. Qed.
Print Assumptions C56_finder_construction.
(** A finder created with default arguments in any later session uses the last accepted settings. *)
Theorem C56_finder_uses_persisted_settings : forall fs s0 h depth c, files_ok fs -> settings_init fs = Ok s0 -> (4 <= depth)%nat ->
  let v k := match last_accepted k (rev h) with Some v => v | None => get k s0 end in
  concrete_container (v KContainer) = true -> concrete_algorithm (v KAlgorithm) = true -> concrete_estimator (v KEstimator) = true ->
  exists o, new_finder depth (settings_init (files_after h fs)) c (VContainer DEFAULT_CONTAINER) (VAlgorithm DEFAULT_ALGORITHM)
              (VEstimator DEFAULT_ESTIMATOR) py_none None None = Ok o /\
    container_type (o_container o) = v KContainer /\ algorithm_type (o_algorithm o) = v KAlgorithm /\
    (forall e, algorithm_estimator (o_algorithm o) = Some e -> estimator_type e = v KEstimator) /\
    o_precision o = v KPrecision /\ o_verbose o = v KVerbose.
Proof. exact finder_after_history. Qed.
Print Assumptions C56_finder_uses_persisted_settings.
Example C56_nonvacuous : has_level service0 /\ concrete_container (get KContainer service0) = true /\
  concrete_algorithm (get KAlgorithm service0) = true /\ concrete_estimator (get KEstimator service0) = true /\
  exists o, new_finder 4 (Ok service0) 7 (VContainer PLAIN_CONTAINER) (VAlgorithm DEFAULT_ALGORITHM) (VEstimator QUADRATURE_ESTIMATOR) p67 None None = Ok o /\
    o_algorithm o = SimpleA 7 (QuadE 7) /\ o_container o = PlainC None /\ o_precision o = p67.
Proof. split; [exists WARNING; reflexivity|]. repeat (split; [reflexivity|]). eexists. repeat split. Qed.
