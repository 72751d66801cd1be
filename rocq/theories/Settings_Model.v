(** * Settings: settings/json_helper.py, json_core_settings.py, json_settings_service.py,
      ram_settings_service.py and the enumerations of pyzeal_types. *)
From Verif Require Import PyBase Json_Model.
Open Scope string_scope.

(** pyzeal_types/container_types.py:12-16 *)
Inductive ContainerTypes : Type := ROUNDING_CONTAINER | PLAIN_CONTAINER | DEFAULT_CONTAINER.
(** Iteration over the enumeration, container_types.py:12-16. *)
Definition container_members : list ContainerTypes := [ROUNDING_CONTAINER; PLAIN_CONTAINER; DEFAULT_CONTAINER].
(** container_types.py:14-16. *)
Definition container_name (c : ContainerTypes) : string :=
  match c with ROUNDING_CONTAINER => "ROUNDING_CONTAINER" | PLAIN_CONTAINER => "PLAIN_CONTAINER" | DEFAULT_CONTAINER => "DEFAULT" end.
(** container_types.py:14-16. *)
Definition container_value (c : ContainerTypes) : string :=
  match c with ROUNDING_CONTAINER => "RoundingContainer" | PLAIN_CONTAINER => "PlainContainer" | DEFAULT_CONTAINER => "DefaultContainer" end.

(** pyzeal_types/algorithm_types.py:12-18 *)
Inductive AlgorithmTypes : Type := NEWTON_GRID | SIMPLE_ARGUMENT | SIMPLE_ARGUMENT_NEWTON | ASSOCIATED_POLYNOMIAL | DEFAULT_ALGORITHM.
(** Iteration over the enumeration, algorithm_types.py:12-18. *)
Definition algorithm_members : list AlgorithmTypes := [NEWTON_GRID; SIMPLE_ARGUMENT; SIMPLE_ARGUMENT_NEWTON; ASSOCIATED_POLYNOMIAL; DEFAULT_ALGORITHM].
(** algorithm_types.py:14-18. *)
Definition algorithm_name (a : AlgorithmTypes) : string :=
  match a with
  | NEWTON_GRID => "NEWTON_GRID" | SIMPLE_ARGUMENT => "SIMPLE_ARGUMENT" | SIMPLE_ARGUMENT_NEWTON => "SIMPLE_ARGUMENT_NEWTON"
  | ASSOCIATED_POLYNOMIAL => "ASSOCIATED_POLYNOMIAL" | DEFAULT_ALGORITHM => "DEFAULT"
  end.
(** algorithm_types.py:14-18. *)
Definition algorithm_value (a : AlgorithmTypes) : string :=
  match a with
  | NEWTON_GRID => "NewtonGrid" | SIMPLE_ARGUMENT => "SimpleArgument" | SIMPLE_ARGUMENT_NEWTON => "SimpleArgumentNewton"
  | ASSOCIATED_POLYNOMIAL => "AssociatedPolynomial" | DEFAULT_ALGORITHM => "DefaultAlgorithm"
  end.

(** pyzeal_types/estimator_types.py:12-16 *)
Inductive EstimatorTypes : Type := SUMMATION_ESTIMATOR | QUADRATURE_ESTIMATOR | DEFAULT_ESTIMATOR.
(** Iteration over the enumeration, estimator_types.py:12-16. *)
Definition estimator_members : list EstimatorTypes := [SUMMATION_ESTIMATOR; QUADRATURE_ESTIMATOR; DEFAULT_ESTIMATOR].
(** estimator_types.py:14-16. *)
Definition estimator_name (e : EstimatorTypes) : string :=
  match e with SUMMATION_ESTIMATOR => "SUMMATION_ESTIMATOR" | QUADRATURE_ESTIMATOR => "QUADRATURE_ESTIMATOR" | DEFAULT_ESTIMATOR => "DEFAULT" end.
(** estimator_types.py:14-16. *)
Definition estimator_value (e : EstimatorTypes) : string :=
  match e with SUMMATION_ESTIMATOR => "SummationEstimator" | QUADRATURE_ESTIMATOR => "QuadratureEstimator" | DEFAULT_ESTIMATOR => "DefaultEstimator" end.

(** pyzeal_logging/log_levels.py:12-23; the values are those of the logging module. *)
Inductive LogLevel : Type := NOTSET | DEBUG | INFO | WARNING | ERROR | CRITICAL.
(** Iteration over the enumeration, log_levels.py:12-23. *)
Definition level_members : list LogLevel := [NOTSET; DEBUG; INFO; WARNING; ERROR; CRITICAL].
(** log_levels.py:18-23. *)
Definition level_name (l : LogLevel) : string :=
  match l with NOTSET => "NOTSET" | DEBUG => "DEBUG" | INFO => "INFO" | WARNING => "WARNING" | ERROR => "ERROR" | CRITICAL => "CRITICAL" end.
(** log_levels.py:18-23. *)
Definition level_value (l : LogLevel) : Z :=
  match l with NOTSET => 0 | DEBUG => 10 | INFO => 20 | WARNING => 30 | ERROR => 40 | CRITICAL => 50 end%Z.

(** Python objects that may be passed to a setter. Code: json_helper.py:53-85, 107-150. *)
Inductive pyval : Type :=
| VJson (j : json)                               (* str, bool, int, float, None, list, dict *)
| VTuple (l : list pyval)
| VContainer (c : ContainerTypes)
| VAlgorithm (a : AlgorithmTypes)
| VEstimator (e : EstimatorTypes)
| VLevel (l : LogLevel)
| VOther (n : nat).                              (* any other object *)

(** The six settings and their keys in the files. Code: json_helper.py:46-50. *)
Inductive key : Type := KContainer | KAlgorithm | KEstimator | KLevel | KVerbose | KPrecision.
(** json_helper.py:46-50. *)
Definition key_name (k : key) : text :=
  txt match k with
      | KContainer => "defaultContainer" | KAlgorithm => "defaultAlgorithm" | KEstimator => "defaultEstimator"
      | KLevel => "logLevel" | KVerbose => "verbose" | KPrecision => "precision"
      end.
(** json_helper.py:40-50 *)
Definition is_core (k : text) : bool := existsb (fun k' => text_eqb k (key_name k')) [KAlgorithm; KContainer; KEstimator].
(** json_helper.py:50. *)
Definition is_setting (k : text) : bool := existsb (fun k' => text_eqb k (key_name k')) [KLevel; KVerbose; KPrecision].

(** A file is missing or has a text.  (UTF-8 decoding and permission errors are not modelled.) Code: json_helper.py:70-74, 98-104. *)
Definition file : Type := option text.

(** json_helper.py:68-75 = 120-128: the current contents, to be updated. *)
Definition read_current (f : file) : res json :=
  match f with
  | None => Ok (JObj [])
  | Some t => match loads t with Ok j => Ok j | Err _ => Err InvalidSettingException end
  end.
(** currentSettings[setting] = value: json_helper.py:80, 133, 137, 145. *)
Definition setitem (j : json) (k : text) (v : json) : res json :=
  match j with JObj d => Ok (JObj (dset text_eqb k v d)) | _ => Err TypeError end.

(** isinstance(value, int): True for bool as well. Code: json_helper.py:141-142. *)
Definition as_int (v : pyval) : option json :=
  match v with VJson (JInt z) => Some (JInt z) | VJson (JBool b) => Some (JBool b) | _ => None end.

(** json_helper.py:77-82: check and JSON value of a core setting. *)
Definition core_json (k : key) (v : pyval) : res json :=
  match k, v with
  | KContainer, VContainer c => Ok (JStr (txt (container_value c)))
  | KAlgorithm, VAlgorithm a => Ok (JStr (txt (algorithm_value a)))
  | KEstimator, VEstimator e => Ok (JStr (txt (estimator_value e)))
  | _, _ => Err InvalidSettingException
  end.
(** json_helper.py:130-147: check and JSON value of the other settings. *)
Definition setting_json (k : key) (v : pyval) : res json :=
  match k, v with
  | KLevel, VLevel l => Ok (JStr (txt (level_name l)))
  | KVerbose, VJson (JBool b) => Ok (JBool b)
  | KPrecision, VTuple l =>
      match l with
      | [] => Err IndexError
      | x :: l' =>
          match as_int x with
          | None => Err InvalidSettingException
          | Some jx =>
              match l' with
              | [] => Err IndexError
              | y :: _ => match as_int y with
                          | None => Err InvalidSettingException
                          | Some jy => Ok (JList [jx; jy])
                          end
              end
          end
      end
  | _, _ => Err InvalidSettingException
  end.
(** json_helper.py:77-82, 130-147: which of the two applies. *)
Definition value_json (k : key) (v : pyval) : res json :=
  match k with
  | KContainer | KAlgorithm | KEstimator => core_json k v
  | _ => setting_json k v
  end.

(** createOrUpdateCoreSetting, json_helper.py:53-85, and createOrUpdateSetting, 107-150: the new text
    of the file, which is then written (open(.., "w") and dump). *)
Definition createOrUpdate (f : file) (k : key) (v : pyval) : res text :=
  bind (read_current f) (fun cur => bind (value_json k v) (fun j => bind (setitem cur (key_name k) j) (fun cur' => Ok (dumps cur')))).

(** loadCoreSettingsFromFile, json_helper.py:88-104 *)
Definition load_core (f : file) (settings : list (text * json)) : res (list (text * json)) :=
  match f with
  | None => Ok settings
  | Some t =>
      bind (loads t) (fun j =>
        match j with
        | JObj d => Ok (fold_left (fun s kv => if is_core (fst kv) then dset text_eqb (fst kv) (snd kv) s else s) d settings)
        | _ => Err AttributeError
        end)
  end.
(** Lists become tuples, json_helper.py:167-168. *)
Definition loaded (j : json) : pyval := match j with JList l => VTuple (map VJson l) | _ => VJson j end.
(** loadSettingsFromFile, json_helper.py:153-171 *)
Definition load_settings (f : file) (settings : list (text * pyval)) : res (list (text * pyval)) :=
  match f with
  | None => Ok settings
  | Some t =>
      bind (loads t) (fun j =>
        match j with
        | JObj d => Ok (fold_left (fun s kv => if is_setting (fst kv) then dset text_eqb (fst kv) (loaded (snd kv)) s else s) d settings)
        | _ => Err AttributeError
        end)
  end.

(** The two settings files, json_core_settings.py:21-24. *)
Record files : Type := mkFiles { default_file : file; custom_file : file }.

(** The attributes of a settings service (memory). Code: json_core_settings.py:34, json_settings_service.py:34, ram_settings_service.py:41-46. *)
Record service : Type := mkService {
  s_container : pyval; s_algorithm : pyval; s_estimator : pyval; s_level : pyval; s_verbose : pyval; s_precision : pyval }.
(** The property getters, json_core_settings.py:84-112, json_settings_service.py:90-144. *)
Definition get (k : key) (s : service) : pyval :=
  match k with
  | KContainer => s_container s | KAlgorithm => s_algorithm s | KEstimator => s_estimator s
  | KLevel => s_level s | KVerbose => s_verbose s | KPrecision => s_precision s
  end.
(** Assignment to an attribute, json_core_settings.py:91, 104, 117, json_settings_service.py:127, 138, 149. *)
Definition put (k : key) (v : pyval) (s : service) : service :=
  match k with
  | KContainer => mkService v (s_algorithm s) (s_estimator s) (s_level s) (s_verbose s) (s_precision s)
  | KAlgorithm => mkService (s_container s) v (s_estimator s) (s_level s) (s_verbose s) (s_precision s)
  | KEstimator => mkService (s_container s) (s_algorithm s) v (s_level s) (s_verbose s) (s_precision s)
  | KLevel => mkService (s_container s) (s_algorithm s) (s_estimator s) v (s_verbose s) (s_precision s)
  | KVerbose => mkService (s_container s) (s_algorithm s) (s_estimator s) (s_level s) v (s_precision s)
  | KPrecision => mkService (s_container s) (s_algorithm s) (s_estimator s) (s_level s) (s_verbose s) v
  end.

(** enum member with value/name equal to the loaded JSON value: json_core_settings.py:49, 55, 61, json_settings_service.py:50. *)
Definition str_is (s : string) (v : json) : bool := match v with JStr t => text_eqb (txt s) t | _ => false end.
(** json_core_settings.py:48-51. *)
Definition find_container (v : json) : option ContainerTypes := find (fun c => str_is (container_value c) v) container_members.
(** json_core_settings.py:54-57. *)
Definition find_algorithm (v : json) : option AlgorithmTypes := find (fun c => str_is (algorithm_value c) v) algorithm_members.
(** json_core_settings.py:60-63. *)
Definition find_estimator (v : json) : option EstimatorTypes := find (fun c => str_is (estimator_value c) v) estimator_members.
(** json_settings_service.py:49-52. *)
Definition find_level (v : pyval) : option LogLevel :=
  match v with VJson j => find (fun l => str_is (level_name l) j) level_members | _ => None end.

(** currentSettings[key], json_core_settings.py:49, 55, 61, json_settings_service.py:50. *)
Definition index {A} (k : text) (d : list (text * A)) : res A :=
  match dget text_eqb k d with Some v => Ok v | None => Err KeyError end.

(** JSONCoreSettingsService.__init__, json_core_settings.py:36-68 *)
Definition core_init (fs : files) : res (ContainerTypes * AlgorithmTypes * EstimatorTypes) :=
  bind (load_core (default_file fs) []) (fun s1 => bind (load_core (custom_file fs) s1) (fun cur =>
  bind (index (key_name KContainer) cur) (fun vc => bind (index (key_name KAlgorithm) cur) (fun va => bind (index (key_name KEstimator) cur) (fun ve =>
  match find_container vc, find_algorithm va, find_estimator ve with
  | Some c, Some a, Some e => Ok (c, a, e)
  | _, _, _ => Err InvalidSettingException
  end))))).

(** bool(v); simplification: a float literal is true iff a digit before its exponent is not 0. Code: json_settings_service.py:56. *)
Fixpoint nonzero_mantissa (t : text) : bool :=
  match t with
  | [] => false
  | c :: t' => if (N.eqb c 101 || N.eqb c 69)%bool then false
               else if (N.leb 49 c && N.leb c 57 || N.eqb c 73 || N.eqb c 78)%bool then true else nonzero_mantissa t'
  end.
(** bool(v), json_settings_service.py:56. *)
Definition truthy (v : pyval) : bool :=
  match v with
  | VJson JNull => false
  | VJson (JBool b) => b
  | VJson (JInt z) => negb (Z.eqb z 0)
  | VJson (JFloat t) => nonzero_mantissa t
  | VJson (JStr s) => match s with [] => false | _ => true end
  | VJson (JList l) => match l with [] => false | _ => true end
  | VJson (JObj d) => match d with [] => false | _ => true end
  | VTuple l => match l with [] => false | _ => true end
  | _ => true
  end.
(** json_settings_service.py:54-56 *)
Definition init_verbose (v : option pyval) : option pyval :=
  match v with
  | None | Some (VJson JNull) => None
  | Some x => Some (VJson (JBool (truthy x)))
  end.
(** json_settings_service.py:59-68; Ok None: the attribute stays unset. *)
Definition init_precision (v : option pyval) : res (option pyval) :=
  match v with
  | Some (VTuple (x :: y :: _)) => Ok (Some (VTuple [x; y]))
  | Some (VTuple _) => Err IndexError
  | _ => Ok None
  end.

(** JSONSettingsService.__init__, json_settings_service.py:36-73 *)
Definition settings_init (fs : files) : res service :=
  bind (core_init fs) (fun core =>
  bind (load_settings (default_file fs) []) (fun s1 => bind (load_settings (custom_file fs) s1) (fun cur =>
  bind (index (key_name KLevel) cur) (fun vl =>
  bind (init_precision (dget text_eqb (key_name KPrecision) cur)) (fun prec =>
  match find_level vl, init_verbose (dget text_eqb (key_name KVerbose) cur), prec with
  | Some l, Some b, Some p =>
      Ok (mkService (VContainer (fst (fst core))) (VAlgorithm (snd (fst core))) (VEstimator (snd core)) (VLevel l) b p)
  | _, _, _ => Err InvalidSettingException
  end))))).

(** The property setters, json_core_settings.py:84-120, json_settings_service.py:90-150: first the
    attribute is assigned, then the file is updated. *)
Definition set_property (k : key) (v : pyval) (s : service) (fs : files) : service * files * res unit :=
  match createOrUpdate (custom_file fs) k v with
  | Ok t => (put k v s, mkFiles (default_file fs) (Some t), Ok tt)
  | Err e => (put k v s, fs, Err e)
  end.

(** RAMSettingsService, ram_settings_service.py:22-106 *)
Definition ram_set (k : key) (v : pyval) (s : service) : service := put k v s.
(** ram_settings_service.py:22-46: the default arguments. *)
Definition ram_default : service :=
  mkService (VContainer ROUNDING_CONTAINER) (VAlgorithm SIMPLE_ARGUMENT) (VEstimator SUMMATION_ESTIMATOR) (VLevel NOTSET)
    (VJson (JBool false)) (VTuple [VJson (JInt 0); VJson (JInt 0)]).

(** settings/default_settings.json: the file read at json_core_settings.py:42-44; quotation marks. *)
Definition q (s : string) : string := String (Ascii.ascii_of_nat 34) (s ++ String (Ascii.ascii_of_nat 34) "").
(** Line breaks in settings/default_settings.json (read at json_core_settings.py:42-44). *)
Definition nl : string := String (Ascii.ascii_of_nat 10) "".
(** settings/default_settings.json (read at json_core_settings.py:42-44, json_settings_service.py:43-45). *)
Definition shipped_default : text := txt (
  "{" ++ nl ++
  "   " ++ q "defaultContainer" ++ ": " ++ q "RoundingContainer" ++ "," ++ nl ++
  "   " ++ q "defaultAlgorithm" ++ ": " ++ q "SimpleArgument" ++ "," ++ nl ++
  "   " ++ q "defaultEstimator" ++ ": " ++ q "SummationEstimator" ++ "," ++ nl ++
  "   " ++ q "logLevel" ++ ": " ++ q "WARNING" ++ "," ++ nl ++
  "   " ++ q "verbose" ++ ": true," ++ nl ++
  "   " ++ q "precision" ++ ": [5, 5]" ++ nl ++
  "}" ++ nl).

(** ** One update as the steps other processes can observe: reading the file (json_helper.py:68-75),
    opening it for writing, which truncates it (84), and writing the text when the buffered file object is
    closed (85).  A write replaces the beginning of what is in the file at that moment. *)
Inductive pc : Type :=
| PStart
| PRead (t : text)                               (* has read; will write t *)
| POpened (t : text)
| PDone
| PFailed (e : exn).                             (* raised, nothing written *)
(** open(filename, w) followed by dump, json_helper.py:84-85, 149-150. *)
Definition overwrite (t : text) (f : file) : file :=
  match f with
  | None => Some t
  | Some old => Some (List.app t (skipn (List.length t) old))
  end.
(** One step of an update, json_helper.py:68-85, 120-150. *)
Definition update_step (k : key) (v : pyval) (p : pc) (f : file) : pc * file :=
  match p with
  | PStart => match createOrUpdate f k v with Ok t => (PRead t, f) | Err e => (PFailed e, f) end
  | PRead t => (POpened t, Some [])
  | POpened t => (PDone, overwrite t f)
  | PDone => (PDone, f)
  | PFailed e => (PFailed e, f)
  end.
