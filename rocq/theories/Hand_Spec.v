(** * Specification of what settings files mean (C79) *)
From Verif Require Import PyBase Json_Model Settings_Model Settings_Spec.
Open Scope list_scope.

(** The words for the values in the files. *)
Definition container_word (c : ContainerTypes) : text :=
  txt match c with ROUNDING_CONTAINER => "RoundingContainer" | PLAIN_CONTAINER => "PlainContainer" | DEFAULT_CONTAINER => "DefaultContainer" end.
Definition algorithm_word (a : AlgorithmTypes) : text :=
  txt match a with
      | NEWTON_GRID => "NewtonGrid" | SIMPLE_ARGUMENT => "SimpleArgument" | SIMPLE_ARGUMENT_NEWTON => "SimpleArgumentNewton"
      | ASSOCIATED_POLYNOMIAL => "AssociatedPolynomial" | DEFAULT_ALGORITHM => "DefaultAlgorithm"
      end.
Definition estimator_word (e : EstimatorTypes) : text :=
  txt match e with SUMMATION_ESTIMATOR => "SummationEstimator" | QUADRATURE_ESTIMATOR => "QuadratureEstimator" | DEFAULT_ESTIMATOR => "DefaultEstimator" end.
Definition level_word (l : LogLevel) : text :=
  txt match l with NOTSET => "NOTSET" | DEBUG => "DEBUG" | INFO => "INFO" | WARNING => "WARNING" | ERROR => "ERROR" | CRITICAL => "CRITICAL" end.
Definition word_of (k : key) : text :=
  txt match k with
      | KContainer => "defaultContainer" | KAlgorithm => "defaultAlgorithm" | KEstimator => "defaultEstimator"
      | KLevel => "logLevel" | KVerbose => "verbose" | KPrecision => "precision"
      end.

(** Which JSON values count as false: null is not even read; false, 0, -0, "", [], {} and floats whose digits before
    the exponent are zeros. *)
Definition counts_as_false (j : json) : Prop :=
  j = JBool false \/ j = JInt 0 \/ j = JStr [] \/ j = JList [] \/ j = JObj [] \/
  exists t u, j = JFloat (t ++ u) /\ (u = [] \/ exists c u', u = c :: u' /\ (c = 101 \/ c = 69)%N) /\
    Forall (fun c => ~ (49 <= c <= 57)%N /\ c <> 73%N /\ c <> 78%N /\ c <> 101%N /\ c <> 69%N) t.

(** The JSON value j, written for the setting k, is read as v. *)
Definition reads (k : key) (j : json) (v : pyval) : Prop :=
  match k with
  | KContainer => exists c, j = JStr (container_word c) /\ v = VContainer c
  | KAlgorithm => exists a, j = JStr (algorithm_word a) /\ v = VAlgorithm a
  | KEstimator => exists e, j = JStr (estimator_word e) /\ v = VEstimator e
  | KLevel => exists l, j = JStr (level_word l) /\ v = VLevel l
  | KVerbose => j <> JNull /\ exists b, v = VJson (JBool b) /\ (b = false <-> counts_as_false j)
  | KPrecision => exists x y more, j = JList (x :: y :: more) /\ v = VTuple [VJson x; VJson y]
  end.

(** What the two files say about a setting: the custom file comes first. *)
Definition says (default custom : list (text * json)) (k : key) : option json :=
  match dget text_eqb (word_of k) custom with Some j => Some j | None => dget text_eqb (word_of k) default end.
