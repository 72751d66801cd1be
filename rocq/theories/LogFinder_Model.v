(** * The log level of a finder and its parts: rootfinders/rootfinder.py *)
From Verif Require Import PyBase Json_Model Settings_Model Log_Model.
Open Scope list_scope.

(** The loggable classes a finder is made of. Code: rootfinder.py:35, parallel_finder.py, the containers, algorithms and estimators. *)
Inductive class : Type :=
| CRootFinder | CParallelRootFinder
| CRoundingContainer | CPlainContainer
| CNewtonGrid | CSimpleArgument | CSimpleArgumentNewton | CPolynomial
| CSummationEstimator | CQuadratureEstimator | CEstimatorCache.

(** loggable.py:35: self.__module__.rsplit(".", maxsplit=1)[-1], i.e. the file a class is
    defined in (rootfinders/, utils/containers/, algorithms/, algorithms/estimators/). *)
Definition module_name (c : class) : text :=
  match c with
  | CRootFinder => txt "rootfinder"
  | CParallelRootFinder => txt "parallel_finder"
  | CRoundingContainer => txt "rounding_container"
  | CPlainContainer => txt "plain_container"
  | CNewtonGrid => txt "newton_grid"
  | CSimpleArgument => txt "simple_holo"
  | CSimpleArgumentNewton => txt "simple_holo_newton"
  | CPolynomial => txt "polynomial_holo"
  | CSummationEstimator => txt "sum_estimator"
  | CQuadratureEstimator => txt "quad_estimator"
  | CEstimatorCache => txt "estimator_cache"
  end.

(** The objects a finder holds (rootfinder.py:74-84): itself, its container, its algorithm;
    the algorithm may hold an estimator (simple_holo.py:63-72). *)
Record finder_parts : Type := mkParts {
  fp_finder : nat; fp_container : nat; fp_algorithm : nat; fp_estimator : option nat }.

Section FinderLevel.
  Variable DATE : date.
  Variable class_of : nat -> class.
  (** self.__module__ of an object, loggable.py:35. *)
  Definition module_of_object (i : nat) : text := module_name (class_of i).
  (** rootfinder.py:192-201, [RootFinder.setLevel] (inherited by ParallelRootFinder):
      [super().setLevel] is the method of Loggable (RootFinderInterface has none), then the
      container, then the algorithm, each of which has only the method of Loggable.
      [settings]: what the settings say during the call. *)
  Definition finder_setLevel (x : finder_parts) (level : LogLevel) (settings : res LogLevel) (st : logging)
    : logging * res unit :=
    match setLevel DATE module_of_object (fp_finder x) level settings st with
    | (st1, Err e) => (st1, Err e)
    | (st1, Ok _) =>
        match setLevel DATE module_of_object (fp_container x) level settings st1 with
        | (st2, Err e) => (st2, Err e)
        | (st2, Ok _) => setLevel DATE module_of_object (fp_algorithm x) level settings st2
        end
    end.
End FinderLevel.
