(** * Initialization: utils/initialization_handler.py, pyzeal_types/init_modes.py *)
From Verif Require Import PyBase Json_Model Settings_Model Locator_Model Loader_Model Log_Model.
Open Scope list_scope.

(** The types services are registered for. Code: initialization_handler.py:59-96. *)
Inductive stype : Type := TSettings | TAlgorithm | TContainer | TEstimator | TParser | TController | TTesting | TUser (n : nat).
(** Identity of types: keys of the dictionaries of service_locator.py:26-28. *)
Definition stype_eqb (a b : stype) : bool :=
  match a, b with
  | TSettings, TSettings | TAlgorithm, TAlgorithm | TContainer, TContainer | TEstimator, TEstimator | TParser, TParser
  | TController, TController | TTesting, TTesting => true
  | TUser m, TUser n => Nat.eqb m n
  | _, _ => false
  end.
(** Objects: settings services (JSON or RAM), the package's parser, controller and testing handler, any others. Code: initialization_handler.py:59-96. *)
Inductive obj : Type :=
| ONone | OSettings (s : service) | OParser | OController (testingHandler settings : obj) | OTesting | OUser (n : nat).
Section Init.
  (** isinstance for the other objects (algorithms, containers, user classes). *)
  Variable user_instance : nat -> stype -> bool.
  (** isinstance(instance, serviceType), service_locator.py:52, 94, 117. *)
  Definition isinst (v : obj) (t : stype) : res bool :=
    Ok match v, t with
       | OSettings _, TSettings | OParser, TParser | OController _ _, TController | OTesting, TTesting => true
       | OUser n, _ => user_instance n t
       | _, _ => false
       end.
  Notation factory := (factory stype obj files).
  Notation locator := (locator stype obj files).

  (** settings_factory.py:17-31 (its one parameter has a default; the value does not matter). *)
  Definition settings_factory : factory :=
    mkFactory [mkParam "settingsType"%string (Some ONone) (TUser 0)] (fun _ w => (w, bind (settings_init w) (fun s => Ok (OSettings s)))).
  (** cli_controller.py:33-42 *)
  Definition arg (n : string) (args : list (string * obj)) : obj := match dget String.eqb n args with Some v => v | None => ONone end.
  (** CLIController as a factory, cli_controller.py:33-42, initialization_handler.py:91-93. *)
  Definition controller_factory : factory :=
    mkFactory [mkParam "testingHandler"%string None TTesting; mkParam "settings"%string None TSettings]
      (fun args w => (w, Ok (OController (arg "testingHandler"%string args) (arg "settings"%string args)))).
  (** install_test_handler.py:20-21 *)
  Definition testing_factory : factory := mkFactory [] (fun _ w => (w, Ok OTesting)).
  (** getConcreteAlgorithm, getConcreteContainer, getConcreteEstimator (Factory_Model) as factories. *)
  Variables algorithm_factory container_factory estimator_factory : factory.

  (** init_modes.py:13-17; "a in b" for flags *)
  Definition CLI : N := 1. Definition SCRIPT : N := 2. Definition GUI : N := 4.
  (** mode in other, initialization_handler.py:58, 67, 86, 99. *)
  Definition flag_in (a b : N) : bool := N.eqb (N.land a b) a.

  (** ServiceLocator, the handler's class attributes, the logging module.  (The messages it logs are left out;
      the settings files are only read.). Code: service_locator.py:26-30, initialization_handler.py:36-39. *)
  Record pyzeal : Type := mkPyzeal { loc : locator; initialized : bool; own_logger : bool; logs : logging }.
  (** Plugins: the plugin directory's listing and what importing modules gives (Loader_Model). *)
  Variable find_module : text -> res (@module stype obj files).
  Variable low : N -> text.
  Variable DATE : date.
  Variable depth : nat.                          (* the interpreter's recursion limit *)

  (** ServiceLocator.tryResolve(SettingsService).logLevel; other objects of this type have a level as well
      (simplification: some level). Code: initialization_handler.py:64, loggable.py:36. *)
  Definition settings_level (w : files) (l : locator) : res LogLevel :=
    bind (snd (tryResolve stype_eqb isinst ONone depth l TSettings [] w))
      (fun v => match v with
                | OSettings s => match get KLevel s with VLevel lv => Ok lv | _ => Err AttributeError end
                | _ => Ok WARNING
                end).
  (** PyZEALInitializationHandler._logger = .., initialization_handler.py:62-65. *)
  Definition with_logger (name : text) (w : files) (l : locator) (lg : logging) : logging * res unit :=
    match settings_level w l with Err e => (lg, Err e) | Ok lv => initLogger DATE name lv lg end.

  (** registerAsTransient, initialization_handler.py:59-96. *)
  Definition register (ts : list (stype * factory)) (l : locator) : locator * res unit :=
    fold_left (fun (acc : locator * res unit) tf => match acc with
               | (l, Ok _) => registerAsTransient stype_eqb (fst tf) (snd tf) l
               | (l, Err e) => (l, Err e) end) ts (l, Ok tt).
  (** One statement after another, initialization_handler.py:48-105. *)
  Definition then_ (r : pyzeal * res unit) (k : pyzeal -> pyzeal * res unit) : pyzeal * res unit :=
    match r with (st, Ok _) => k st | (st, Err e) => (st, Err e) end.
  (** A call of the locator, initialization_handler.py:59-96. *)
  Definition on_loc (f : locator -> locator * res unit) (st : pyzeal) : pyzeal * res unit :=
    let (l, r) := f (loc st) in (mkPyzeal l (initialized st) (own_logger st) (logs st), r).
  (** if, initialization_handler.py:58, 67, 86, 99. *)
  Definition if_ (b : bool) (f : pyzeal -> pyzeal * res unit) (st : pyzeal) : pyzeal * res unit := if b then f st else (st, Ok tt).

  (** initialization_handler.py:42-105 *)
  Definition initPyZEALServices (mode : N) (w : files) (listing : res (list text)) (st : pyzeal) : pyzeal * res unit :=
    if initialized st then (st, Ok tt)
    else
      then_ (if_ (flag_in mode (N.lor CLI SCRIPT)) (on_loc (register [(TSettings, settings_factory)])) st) (fun st =>
      then_ (let (lg, r) := with_logger (txt "initialization_handler") w (loc st) (logs st) in
             (mkPyzeal (loc st) (initialized st) (own_logger st || is_ok r) lg, r)) (fun st =>
      then_ (if_ (flag_in mode SCRIPT)
               (on_loc (register [(TAlgorithm, algorithm_factory); (TContainer, container_factory); (TEstimator, estimator_factory)])) st) (fun st =>
      then_ (if_ (flag_in mode CLI) (fun st =>
               then_ (on_loc (registerAsSingleton stype_eqb isinst TParser OParser) st)
                 (on_loc (register [(TController, controller_factory); (TTesting, testing_factory)]))) st) (fun st =>
      then_ (if_ (negb (flag_in mode CLI)) (fun st =>
               let (lg, r) := with_logger (txt "plugin_loader") w (loc st) (logs st) in
               let (l, r') := loadPlugins stype_eqb find_module low r listing (loc st) in
               (mkPyzeal l (initialized st) (own_logger st) lg, bind r' (fun _ => Ok tt))) st) (fun st =>
      (mkPyzeal (loc st) true (own_logger st) (logs st), Ok tt)))))).
End Init.
