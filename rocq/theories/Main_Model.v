(** * The command line program: cli/__main__.py, the rest of cli/cli_controller.py and cli/cli_parser.py *)
From Verif Require Import PyBase Json_Model Settings_Model Locator_Model Cli_Model Loader_Model Log_Model Init_Model Install_Model.
Open Scope list_scope.

(** ** posixpath.abspath *)
(** os.getcwd() in the directory d: cli_controller.py:85. *)
Definition path_text (d : place) : text :=
  match d with [] => [slash] | _ => flat_map (fun n => slash :: n) (rev d) end.
(** "/".join(ws) Code: cli_controller.py:85. *)
Fixpoint join_slash (ws : list text) : text :=
  match ws with [] => [] | [w] => w | w :: ws' => w ++ slash :: join_slash ws' end.
(** posixpath.normpath: the loop over the components ([new]: new_comps, last one first) Code: abspath, cli_controller.py:85. *)
Fixpoint norm_comps (absolute : bool) (new : list text) (comps : list text) : list text :=
  match comps with
  | [] => new
  | c :: rest =>
      if (text_eqb c [] || text_eqb c (txt "."))%bool then norm_comps absolute new rest
      else if (negb (text_eqb c (txt "..")) || (negb absolute && match new with [] => true | _ => false end)
               || match new with n :: _ => text_eqb n (txt "..") | [] => false end)%bool
           then norm_comps absolute (c :: new) rest
           else norm_comps absolute (tl new) rest
  end.
(** posixpath.normpath, called by abspath, cli_controller.py:85. *)
Definition normpath (path : text) : text :=
  match path with
  | [] => txt "."
  | _ =>
      let initial := if starts_with_slash path
                     then if (starts_with_slash (tl path) && negb (starts_with_slash (tl (tl path))))%bool then [slash; slash] else [slash]
                     else [] in
      match initial ++ join_slash (rev (norm_comps (starts_with_slash path) [] (split_slash path))) with
      | [] => txt "."
      | p => p
      end
  end.
(** os.path.abspath, cli_controller.py:85. *)
Definition abspath (cwd : place) (path : text) : text :=
  normpath (if starts_with_slash path then path else join (path_text cwd) path).

(** ** cli_parser.py:174-211 *)
(** argparse's result: the program is left with a code (--help, --version: 0; errors: 2), or a namespace.
    argparse itself is an argument here; Argparse_Model models it. Code: cli_parser.py:187. *)
Inductive value : Type := NoneV | BoolV (b : bool) | TextV (t : text) | IntsV (l : list Z).
(** The namespace args, cli_parser.py:187. *)
Definition namespace : Type := list (string * value).
(** The result of parse_args, cli_parser.py:187. *)
Inductive parse : Type := Exits (code : Z) | Parsed (ns : namespace).
(** getattr(args, name, default), cli_parser.py:191-208. *)
Definition getattr (ns : namespace) (name : string) (default : value) : value :=
  match dget String.eqb name ns with Some v => v | None => default end.
(** The bool fields, cli_parser.py:191, 202-203, 208. *)
Definition is_true (v : value) : bool :=
  match v with NoneV => false | BoolV b => b | TextV [] => false | TextV _ => true | IntsV [] => false | IntsV _ => true end.
(** The string fields, cli_parser.py:192-196, 204-205. *)
Definition as_text (v : value) : option text := match v with TextV t => Some t | _ => None end.
(** parse_results.py:27-45 *)
Record plugin_args : Type := mkPluginArgs { p_list : bool; p_modules : bool; p_install : option text; p_uninstall : option text }.
(** cli_parser.py:190-200. *)
Definition settings_part (ns : namespace) : settings_args :=
  mkArgs (is_true (getattr ns "print" (BoolV false))) (as_text (getattr ns "container" (TextV [])))
    (as_text (getattr ns "algorithm" (TextV []))) (as_text (getattr ns "estimator" (TextV [])))
    (as_text (getattr ns "log_level" (TextV []))) (as_text (getattr ns "verbose" (TextV [])))
    (match getattr ns "precision" NoneV with
     | IntsV (x :: l) => Some (VTuple (map (fun z => VJson (JInt z)) (x :: l)))
     | _ => None
     end).
(** cli_parser.py:201-206. *)
Definition plugin_part (ns : namespace) : plugin_args :=
  mkPluginArgs (is_true (getattr ns "list" (BoolV false))) (is_true (getattr ns "modules" (BoolV false)))
    (as_text (getattr ns "install" (TextV []))) (as_text (getattr ns "uninstall" (TextV []))).
(** cli_parser.py:207-209. *)
Definition testing_part (ns : namespace) : bool := is_true (getattr ns "test" (BoolV false)).

(** ** What a run works on, and what it does besides: lines printed, test modules run. *)
(** The settings files (json_core_settings.py:21-24) and the directory tree (installation_helper.py:28-45). *)
Record machine : Type := mkMachine { m_files : files; m_tree : tree }.
(** What the user sees: lines printed (cli_controller.py:45-97, __main__.py:37-48), settings changed, test runs (cli_controller.py:100-108). *)
Inductive act : Type := Printed (t : text) | Reported (m : message) | Ran (module : text).
(** The files afterwards, what was seen and whether an exception ended it: any step of __main__.py:33-48. *)
Definition outcome : Type := (machine * list act * res unit)%type.
(** One statement after another, __main__.py:33-48. *)
Definition seq_ (r : outcome) (f : machine -> outcome) : outcome :=
  match r with
  | (m, o, Ok _) => let '(m', o', r') := f m in (m', o ++ o', r')
  | (m, o, Err e) => (m, o, Err e)
  end.
(** Nothing happens (an if without else, cli_controller.py:45-97). *)
Definition done_ (m : machine) : outcome := (m, [], Ok tt).
(** print(t), __main__.py:38, 48 and cli_controller.py. *)
Definition say (t : text) (m : machine) : outcome := (m, [Printed t], Ok tt).
(** if b: f, cli_controller.py:46, 71, 77, 101. *)
Definition when_ (b : bool) (f : machine -> outcome) (m : machine) : outcome := if b then f m else done_ m.
(** if args.install: .., cli_controller.py:83, 91. *)
Definition given_ (o : option text) (f : text -> machine -> outcome) (m : machine) : outcome :=
  match o with Some (c :: t) => f (c :: t) m | _ => done_ m end.

Section Main.
  Variables up low : N -> text.
  Variable str_of : pyval -> text.               (* str(v) of verbosity and precision *)
  Variable number_text : Z -> text.              (* str of an int *)
  Variable argparse : list text -> parse.
  (** Running the tests of a module, install_test_handler.py:24-31 (the directory it changes to is not used
      afterwards). *)
  Variable pytest : text -> machine -> machine.
  Variable listdir : tree -> res (list text).    (* os.listdir(PLUGIN_INSTALL_DIR) *)
  Variable find_module : text -> res (@module stype obj files).
  Variable user_instance : nat -> stype -> bool.
  Variables algorithm_factory container_factory estimator_factory : factory stype obj files.
  Variable DATE : date.
  Variable depth : nat.
  Variable DIR : text.                           (* PLUGIN_INSTALL_DIR *)

  (** str of a settings value, json_core_settings.py:70-82, json_settings_service.py:75-88. *)
  Definition enum_value (v : pyval) : res text :=
    match v with
    | VContainer c => Ok (txt (container_value c))
    | VAlgorithm a => Ok (txt (algorithm_value a))
    | VEstimator e => Ok (txt (estimator_value e))
    | _ => Err AttributeError
    end.
  (** Line breaks, json_settings_service.py:82-88. *)
  Definition newline : text := [10%N].
  (** json_core_settings.py:70-81, json_settings_service.py:75-87 *)
  Definition settings_str (s : service) : res text :=
    bind (enum_value (get KContainer s)) (fun c =>
    bind (enum_value (get KAlgorithm s)) (fun a =>
    bind (enum_value (get KEstimator s)) (fun e =>
    bind (match get KLevel s with VLevel l => Ok (txt (level_name l)) | _ => Err AttributeError end) (fun l =>
    Ok (txt "Currently active settings configuration:" ++ newline
        ++ txt "-> default container:   " ++ c ++ newline
        ++ txt "-> default algorithm:   " ++ a ++ newline
        ++ txt "-> default estimator:   " ++ e ++ newline
        ++ txt "-> default log level:   " ++ l ++ newline
        ++ txt "-> default verbosity:   " ++ str_of (get KVerbose s) ++ newline
        ++ txt "-> default precision:   " ++ str_of (get KPrecision s)))))).

  (** cli_controller.py:45-47 *)
  Definition handleViewSubcommand (s : service) (args : settings_args) : machine -> outcome :=
    when_ (a_print args) (fun m => match settings_str s with Ok t => say t m | Err e => (m, [], Err e) end).
  (** cli_controller.py:50-67 *)
  Definition handleChange (s : service) (args : settings_args) (m : machine) : outcome :=
    let (st, r) := handleChangeSubcommand up low args (mkCli s (m_files m) []) in
    (mkMachine (c_files st) (m_tree m), map Reported (c_out st), r).
  (** cli_controller.py:71-75 *)
  Definition listPlugins (l : locator stype obj files) (lg : logging) (m : machine) : outcome :=
    seq_ (say (txt "currently installed Plugins:") m) (fun m =>
    seq_ (say (txt "----------------------------") m) (fun m =>
      let (_, log) := with_logger user_instance DATE depth (txt "plugin_loader") (m_files m) l lg in
      match snd (loadPlugins stype_eqb find_module low log (listdir (m_tree m)) l) with
      | Err e => (m, [], Err e)
      | Ok is_ => (m, map (fun i => Printed (plugin_str number_text i)) is_, Ok tt)
      end)).
  (** cli_controller.py:77-81 *)
  Definition listModules (m : machine) : outcome :=
    seq_ (say (txt "installation directory contents:") m) (fun m =>
    seq_ (say (txt "--------------------------------") m) (fun m =>
      match listdir (m_tree m) with
      | Err e => (m, [], Err e)
      | Ok ns => (m, map Printed (discoverModules ns), Ok tt)
      end)).
  (** cli_controller.py:83-89, 91-97 *)
  Definition report (success : text) (r : tree * res bool) (m : machine) : outcome :=
    let m' := mkMachine (m_files m) (fst r) in
    match snd r with
    | Ok true => say success m'
    | Ok false => (m', [Printed (txt "[error] the requested plugin does not exist - abort!")], Err (SystemExit 2))
    | Err e => (m', [], Err e)
    end.
  (** cli_controller.py:83-89. *)
  Definition install (cwd : place) (t : text) (m : machine) : outcome :=
    seq_ (say (txt "installing plugin " ++ t ++ txt "...") m)
      (fun m => report (txt "[success] plugin was installed!") (installPlugin DIR cwd (abspath cwd t) (m_tree m)) m).
  (** cli_controller.py:91-97. *)
  Definition uninstall (cwd : place) (t : text) (m : machine) : outcome :=
    seq_ (say (txt "uninstalling plugin " ++ t ++ txt "...") m)
      (fun m => report (txt "[success] plugin was uninstalled!") (uninstallPlugin DIR cwd t (m_tree m)) m).
  (** cli_controller.py:70-97 *)
  Definition handlePluginSubcommand (l : locator stype obj files) (lg : logging) (cwd : place) (args : plugin_args) (m : machine) : outcome :=
    seq_ (when_ (p_list args) (listPlugins l lg) m) (fun m =>
    seq_ (when_ (p_modules args) listModules m) (fun m =>
    seq_ (given_ (p_install args) (install cwd) m) (fun m =>
    given_ (p_uninstall args) (uninstall cwd) m))).
  (** cli_controller.py:100-108 *)
  Definition test_modules : list string := ["cli"; "algorithms"; "containers"; "estimators"]%string.
  (** cli_controller.py:100-108. *)
  Definition handleTestingOption (doTest : bool) : machine -> outcome :=
    when_ doTest (fun m => (fold_left (fun m md => pytest (txt md) m) test_modules m, map (fun md => Ran (txt md)) test_modules, Ok tt)).

  (** __main__.py:26-48; [argv]: sys.argv, with the program's name; [lg]: the (new) process's logging.  The
      objects resolved can only be the package's own ones here. *)
  Definition mainPyZEAL (argv : list text) (cwd : place) (lg : logging) (m : machine) : outcome :=
    let (st, r) := initPyZEALServices user_instance algorithm_factory container_factory estimator_factory find_module low DATE depth
                     CLI (m_files m) (listdir (m_tree m)) (mkPyzeal (empty_locator) false false lg) in
    let resolve t m := snd (tryResolve stype_eqb (isinst user_instance) ONone depth (loc st) t [] (m_files m)) in
    match r with
    | Err e => (m, [], Err e)
    | Ok _ =>
        match resolve TParser m with
        | Err e => (m, [], Err e)
        | Ok _ =>
            match argparse (tl argv) with
            | Exits c => (m, [], Err (SystemExit c))
            | Parsed ns =>
                seq_ (when_ (Nat.ltb (List.length argv) 2) (say (txt "this is the CLI of the PyZEAL package. use '-h' for help.")) m) (fun m =>
                match resolve TController m with
                | Err e => (m, [], Err e)
                | Ok (OController _ (OSettings s)) =>
                    seq_ (handleViewSubcommand s (settings_part ns) m) (fun m =>
                    seq_ (handleChange s (settings_part ns) m) (fun m =>
                    seq_ (handlePluginSubcommand (loc st) (logs st) cwd (plugin_part ns) m) (fun m =>
                    seq_ (handleTestingOption (testing_part ns) m) (fun m =>
                    when_ (Nat.eqb (List.length argv) 2 && negb (testing_part ns)) (say (txt "use '-h' with your subcommand for help.")) m))))
                | Ok _ => (m, [], Err AttributeError)
                end)
            end
        end
    end.
End Main.
