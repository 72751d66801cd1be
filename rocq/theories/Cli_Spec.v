(** * Specification of the command line controller (C57, C58) *)
From Verif Require Import PyBase Json_Model Settings_Model Settings_Spec Factory_Spec Cli_Model.
Open Scope list_scope.

(** Equality of ASCII strings up to case. *)
Definition same_letter (a b : N) : Prop :=
  (a = b \/ 97 <= a /\ a <= 122 /\ b + 32 = a \/ 65 <= a /\ a <= 90 /\ a + 32 = b)%N.
Definition nocase (s t : text) : Prop := Forall2 same_letter s t.
Definition ascii (s : text) : Prop := Forall (fun c => c < 128)%N s.

(** The option for k is given (and not the empty string). *)
Definition given (o : option text) : Prop := exists t, o = Some t /\ t <> [].
Definition asks (args : settings_args) (k : key) : Prop :=
  match k with
  | KContainer => given (a_container args) | KAlgorithm => given (a_algorithm args) | KEstimator => given (a_estimator args)
  | KLevel => given (a_level args) | KVerbose => given (a_verbose args)
  | KPrecision => exists p, a_precision args = Some p /\ truthy p = true
  end.
(** ... and means the value v: names up to (Unicode) case. *)
Definition wants (up low : N -> text) (args : settings_args) (k : key) (v : pyval) : Prop :=
  asks args k /\
  match k with
  | KContainer => exists t c, a_container args = Some t /\ upper up (t ++ txt "_container") = txt (container_name c) /\ v = VContainer c
  | KAlgorithm => exists t c, a_algorithm args = Some t /\ upper up t = txt (algorithm_name c) /\ v = VAlgorithm c
  | KEstimator => exists t c, a_estimator args = Some t /\ upper up (t ++ txt "_estimator") = txt (estimator_name c) /\ v = VEstimator c
  | KLevel => exists t c, a_level args = Some t /\ upper up t = txt (level_name c) /\ v = VLevel c
  | KVerbose => exists t b, a_verbose args = Some t /\ (b = true <-> lower low t = txt "true") /\ v = VJson (JBool b)
  | KPrecision => a_precision args = Some v
  end.
(** Equality of a requested value and a current one: precisions are compared as numbers. *)
Definition number (v : pyval) : option Z :=
  match v with VJson (JInt z) => Some z | VJson (JBool true) => Some 1%Z | VJson (JBool false) => Some 0%Z | _ => None end.
Definition already (v w : pyval) : Prop :=
  v = w \/ exists x y x' y' a b, v = VTuple [x; y] /\ w = VTuple [x'; y'] /\
    number x = Some a /\ number x' = Some a /\ number y = Some b /\ number y' = Some b.
(** A given precision is a pair of integers. *)
Definition precision_pair (args : settings_args) : Prop :=
  forall p, a_precision args = Some p -> truthy p = true -> exists x y, p = VTuple [x; y] /\ is_int x = true /\ is_int y = true.
Definition understood (up low : N -> text) (args : settings_args) (k : key) : Prop := asks args k -> exists v, wants up low args k v.
(** The new settings s' result from s by the option for k: the requested value, unless it is already set. *)
Definition carried_out (up low : N -> text) (args : settings_args) (k : key) (s s' : service) : Prop :=
  (forall v, wants up low args k v -> already v (get k s) /\ get k s' = get k s \/ ~ already v (get k s) /\ get k s' = v) /\
  (~ asks args k -> get k s' = get k s).
(** The order in which the options are handled. *)
Definition position (k : key) : nat :=
  match k with KContainer => 0 | KAlgorithm => 1 | KEstimator => 2 | KLevel => 3 | KVerbose => 4 | KPrecision => 5 end.

(** The names the controller knows (to be matched up to case). *)
Definition option_of (args : settings_args) (k : key) : option text :=
  match k with
  | KContainer => a_container args | KAlgorithm => a_algorithm args | KEstimator => a_estimator args
  | KLevel => a_level args | KVerbose => a_verbose args | KPrecision => None
  end.
Definition known (k : key) : list (string * pyval) :=
  match k with
  | KContainer => [("ROUNDING", VContainer ROUNDING_CONTAINER); ("PLAIN", VContainer PLAIN_CONTAINER)]
  | KAlgorithm => [("NEWTON_GRID", VAlgorithm NEWTON_GRID); ("SIMPLE_ARGUMENT", VAlgorithm SIMPLE_ARGUMENT);
                   ("SIMPLE_ARGUMENT_NEWTON", VAlgorithm SIMPLE_ARGUMENT_NEWTON);
                   ("ASSOCIATED_POLYNOMIAL", VAlgorithm ASSOCIATED_POLYNOMIAL); ("DEFAULT", VAlgorithm DEFAULT_ALGORITHM)]
  | KEstimator => [("SUMMATION", VEstimator SUMMATION_ESTIMATOR); ("QUADRATURE", VEstimator QUADRATURE_ESTIMATOR)]
  | KLevel => [("NOTSET", VLevel NOTSET); ("DEBUG", VLevel DEBUG); ("INFO", VLevel INFO); ("WARNING", VLevel WARNING);
               ("ERROR", VLevel ERROR); ("CRITICAL", VLevel CRITICAL)]
  | KVerbose | KPrecision => []
  end%string.

(** Results of the parser for some command line. *)
Definition one_of (choices : list string) (o : option text) : Prop :=
  match o with None => True | Some t => t = [] \/ exists c, In c choices /\ t = txt c end.
Definition from_parser (args : settings_args) : Prop :=
  one_of choices_container (a_container args) /\ one_of choices_algorithm (a_algorithm args) /\
  one_of choices_estimator (a_estimator args) /\ one_of choices_level (a_level args) /\
  one_of choices_verbose (a_verbose args) /\
  match a_precision args with None => True | Some p => exists x y, p = VTuple [VJson (JInt x); VJson (JInt y)] end.

(** One run of the program with the change subcommand: a new service is loaded; its result code. *)
Definition run_change (up low : N -> text) (args : settings_args) (fs : files) : files * list message * res unit :=
  match settings_init fs with
  | Err e => (fs, [], Err e)
  | Ok s => let (st, r) := handleChangeSubcommand up low args (mkCli s fs []) in (c_files st, c_out st, r)
  end.
Definition runs (up low : N -> text) (cmds : list settings_args) (fs : files) : files :=
  fold_left (fun fs a => fst (fst (run_change up low a fs))) cmds fs.
(** All configured types have an implementation. *)
Definition usable (s : service) : Prop :=
  concrete_container (get KContainer s) = true /\ concrete_algorithm (get KAlgorithm s) = true /\ concrete_estimator (get KEstimator s) = true.
