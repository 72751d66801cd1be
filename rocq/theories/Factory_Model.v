(** * Factories and the construction of a root finder: utils/factories/, the constructors they call,
      rootfinders/rootfinder.py:50-96. *)
From Verif Require Import PyBase Json_Model Settings_Model.
Open Scope Z_scope.

(** What ServiceLocator.tryResolve(SettingsService) gives (a new JSON service at each call after the
    usual initialization; then its values are those of the files, which do not change meanwhile). Code: loggable.py:36, container_factory.py:105, algorithm_factory.py:81, rootfinder.py:86, 92-94. *)
Definition settings : Type := res service.

(** pyzeal_logging/loggable.py:25-38, log_manager.py:36-60: an object's first use of its logger resolves
    the settings and reads logLevel.value. *)
Definition logged (st : settings) : res service :=
  bind st (fun s => match get KLevel s with VLevel _ => Ok s | _ => Err AttributeError end).
(** A factory's own logger is created at its first use (container_factory.py:87-91 etc.). *)
Definition factory_logger (ready : bool) (st : settings) : res unit :=
  if ready then Ok tt else bind (logged st) (fun _ => Ok tt).

(** Python's "a or b". Code: rounding_container.py:43-45, rootfinder.py:85-87. *)
Definition py_or (a : pyval) (b : res pyval) : res pyval := if truthy a then Ok a else b.
(** Python's None, the default of precision (rootfinder.py:58). *)
Definition py_none : pyval := VJson JNull.

(** Containers: rounding_container.py:36-48 and plain_container.py:37-45 (None: a fresh queue). *)
Inductive container_obj : Type := RoundingC (precision : pyval) | PlainC (queue : option nat).
(** rounding_container.py:36-48. *)
Definition new_rounding (st : settings) (precision : pyval) : res container_obj :=
  bind (py_or precision (bind st (fun s => Ok (get KPrecision s)))) (fun p => bind (logged st) (fun _ => Ok (RoundingC p))).
(** plain_container.py:37-45. *)
Definition new_plain (st : settings) (queue : option nat) : res container_obj :=
  bind (logged st) (fun _ => Ok (PlainC queue)).

(** container_factory.py:71-111; [depth]: remaining recursion depth of the interpreter. *)
Fixpoint getConcreteContainer (depth : nat) (ready : bool) (st : settings) (containerType precision : pyval) (queue : option nat)
  : res container_obj :=
  match depth with
  | O => Err RecursionError
  | S n =>
      bind (factory_logger ready st) (fun _ =>
      match containerType with
      | VContainer ROUNDING_CONTAINER => new_rounding st precision
      | VContainer PLAIN_CONTAINER => new_plain st queue
      | _ => bind st (fun s => getConcreteContainer n true st (get KContainer s) precision queue)
      end)
  end.

(** Estimators: sum_estimator.py:47-73, quad_estimator.py:32-38; a cache is identified by a number. *)
Inductive estimator_obj : Type :=
| SumE (numPts : Z) (deltaPhi maxPrecision : Q) (cache : nat)
| QuadE (cache : nat).
(** estimator_factory.py:29-85 *)
Fixpoint getConcreteEstimator (depth : nat) (ready : bool) (st : settings) (estimatorType : pyval) (cache : nat)
  (numPts : option Z) (deltaPhi maxPrecision : option Q) : res estimator_obj :=
  match depth with
  | O => Err RecursionError
  | S n =>
      bind (factory_logger ready st) (fun _ =>
      match estimatorType with
      | VEstimator SUMMATION_ESTIMATOR =>
          match numPts, deltaPhi, maxPrecision with
          | Some a, Some b, Some c => Ok (SumE a b c cache)
          | _, _, _ => Err ValueError
          end
      | VEstimator QUADRATURE_ESTIMATOR => Ok (QuadE cache)
      | _ => bind st (fun s => getConcreteEstimator n true st (get KEstimator s) cache numPts deltaPhi maxPrecision)
      end)
  end.

(** algorithms/constants.py:20-22 *)
Definition DEFAULT_NUM_PTS : Z := 6500.
(** algorithms/constants.py:21. *)
Definition DEFAULT_DELTA_PHI : Q := 1 # 100.
(** algorithms/constants.py:22. *)
Definition DEFAULT_MAX_PRECISION : Q := 1 # 10000000000.

(** Algorithms; the three argument based ones have the constructor of simple_holo.py:42-74, which makes a
    cache (fresh number c) and resolves an estimator, passing all its parameters. *)
Inductive algorithm_obj : Type :=
| NewtonGridA (numSamplePoints : Z)
| SimpleA (cache : nat) (e : estimator_obj)
| SimpleNewtonA (cache : nat) (e : estimator_obj)
| PolynomialA (cache : nat) (e : estimator_obj).
(** simple_holo.py:42-74. *)
Definition new_simple (depth : nat) (st : settings) (c : nat) (estimatorType : pyval) : res estimator_obj :=
  bind (getConcreteEstimator depth false st estimatorType c (Some DEFAULT_NUM_PTS) (Some DEFAULT_DELTA_PHI) (Some DEFAULT_MAX_PRECISION))
    (fun e => bind (logged st) (fun _ => Ok e)).
(** newton_grid.py:34-42 *)
Definition new_newton_grid (st : settings) (numSamplePoints : Z) : res algorithm_obj :=
  bind (logged st) (fun _ => Ok (NewtonGridA numSamplePoints)).
(** algorithm_factory.py:33-86 *)
Fixpoint getConcreteAlgorithm (depth : nat) (ready : bool) (st : settings) (c : nat) (algoType estimatorType : pyval)
  (numSamplePoints : option Z) : res algorithm_obj :=
  match depth with
  | O => Err RecursionError
  | S n =>
      bind (factory_logger ready st) (fun _ =>
      match algoType with
      | VAlgorithm NEWTON_GRID =>
          match numSamplePoints with
          | Some k => if Z.eqb k 0 then new_newton_grid st 50 else new_newton_grid st k
          | None => new_newton_grid st 50
          end
      | VAlgorithm SIMPLE_ARGUMENT => bind (new_simple n st c estimatorType) (fun e => Ok (SimpleA c e))
      | VAlgorithm SIMPLE_ARGUMENT_NEWTON => bind (new_simple n st c estimatorType) (fun e => Ok (SimpleNewtonA c e))
      | VAlgorithm ASSOCIATED_POLYNOMIAL => bind (new_simple n st c estimatorType) (fun e => Ok (PolynomialA c e))
      | _ => bind st (fun s => getConcreteAlgorithm n true st c (get KAlgorithm s) estimatorType numSamplePoints)
      end)
  end.

(** RootFinder.__init__, rootfinder.py:50-96: the registered factories are called with the given
    keywords (C48); [verbose] None: the configured one. *)
Record finder_obj : Type := mkFinderObj {
  o_algorithm : algorithm_obj; o_container : container_obj; o_precision : pyval; o_verbose : pyval }.
(** rootfinder.py:50-96. *)
Definition new_finder (depth : nat) (st : settings) (c : nat) (containerType algorithmType estimatorType precision : pyval)
  (numSamplePoints : option Z) (verbose : option pyval) : res finder_obj :=
  bind (getConcreteAlgorithm depth false st c algorithmType estimatorType numSamplePoints) (fun a =>
  bind (getConcreteContainer depth false st containerType precision None) (fun k =>
  bind (py_or precision (bind st (fun s => Ok (get KPrecision s)))) (fun p =>
  bind (match verbose with Some v => Ok v | None => bind st (fun s => Ok (get KVerbose s)) end) (fun v =>
  bind (logged st) (fun _ => Ok (mkFinderObj a k p v)))))).
