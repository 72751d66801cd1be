(** * Specification of the factories (C56) *)
From Verif Require Import PyBase Json_Model Settings_Model Factory_Model.
Open Scope Z_scope.

(** Types that have an implementation. *)
Definition concrete_container (v : pyval) : bool :=
  match v with VContainer ROUNDING_CONTAINER | VContainer PLAIN_CONTAINER => true | _ => false end.
Definition concrete_estimator (v : pyval) : bool :=
  match v with VEstimator SUMMATION_ESTIMATOR | VEstimator QUADRATURE_ESTIMATOR => true | _ => false end.
Definition concrete_algorithm (v : pyval) : bool :=
  match v with
  | VAlgorithm NEWTON_GRID | VAlgorithm SIMPLE_ARGUMENT | VAlgorithm SIMPLE_ARGUMENT_NEWTON | VAlgorithm ASSOCIATED_POLYNOMIAL => true
  | _ => false
  end.

(** The type of an object. *)
Definition container_type (o : container_obj) : pyval :=
  VContainer match o with RoundingC _ => ROUNDING_CONTAINER | PlainC _ => PLAIN_CONTAINER end.
Definition estimator_type (o : estimator_obj) : pyval :=
  VEstimator match o with SumE _ _ _ _ => SUMMATION_ESTIMATOR | QuadE _ => QUADRATURE_ESTIMATOR end.
Definition algorithm_type (o : algorithm_obj) : pyval :=
  VAlgorithm match o with
             | NewtonGridA _ => NEWTON_GRID | SimpleA _ _ => SIMPLE_ARGUMENT
             | SimpleNewtonA _ _ => SIMPLE_ARGUMENT_NEWTON | PolynomialA _ _ => ASSOCIATED_POLYNOMIAL
             end.
Definition estimator_cache (o : estimator_obj) : nat := match o with SumE _ _ _ c => c | QuadE c => c end.
Definition algorithm_estimator (o : algorithm_obj) : option estimator_obj :=
  match o with NewtonGridA _ => None | SimpleA _ e | SimpleNewtonA _ e | PolynomialA _ e => Some e end.
Definition algorithm_cache (o : algorithm_obj) : option nat :=
  match o with NewtonGridA _ => None | SimpleA c _ | SimpleNewtonA c _ | PolynomialA c _ => Some c end.

(** What a request for v means: v itself if it is concrete, the configured default otherwise. *)
Definition meant (concrete : pyval -> bool) (k : key) (s : service) (v : pyval) : pyval := if concrete v then v else get k s.
(** Settings that loading can give (a log level is an enumeration member). *)
Definition has_level (s : service) : Prop := exists l, get KLevel s = VLevel l.
