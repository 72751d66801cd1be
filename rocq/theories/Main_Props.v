(** * Property C72: the command line program *)
From Verif Require Import PyBase Json_Model Settings_Model Settings_Spec Settings_Proofs3 Locator_Model Cli_Model Cli_Spec Loader_Model Loader_Spec Log_Model
  Init_Model Init_Spec Install_Model Install_Spec Install_Proofs Main_Model Main_Spec Main_Proofs Main_Proofs2 Main_Proofs3 Main_Proofs4 Main_Proofs5.
Open Scope list_scope.

Section C72.
  Variables up low : N -> text.
  Variable str_of : pyval -> text.
  Variable number_text : Z -> text.
  Variable argparse : list text -> parse.
  Variable pytest : text -> machine -> machine.
  Variable listdir : tree -> res (list text).
  Variable find_module : text -> res (@module stype obj files).
  Variable user_instance : nat -> stype -> bool.
  Variables algorithm_factory container_factory estimator_factory : factory stype obj files.
  Variable DATE : date.
  Variable depth : nat.
  Variable DIR : text.
  Notation main := (mainPyZEAL up low str_of number_text argparse pytest listdir find_module user_instance algorithm_factory container_factory
                      estimator_factory DATE (S (S depth)) DIR).

  (** Unreadable settings make every command fail with that error (--help, --version and change included); nothing
      is printed or changed. *)
  Theorem C72_unreadable_settings : forall argv cwd lg m e, settings_init (m_files m) = Err e -> main argv cwd lg m = (m, [], Err e).
  Proof. exact (unreadable_run up low str_of number_text argparse pytest listdir find_module user_instance algorithm_factory container_factory estimator_factory DATE depth DIR). Qed.
  (** A command line argparse does not let through (or answers itself, like --help) changes nothing. *)
  Theorem C72_parser_exit : forall argv cwd lg m s c, settings_init (m_files m) = Ok s -> usable_logs lg -> argparse (tl argv) = Exits c ->
    main argv cwd lg m = (m, [], Err (SystemExit c)).
  Proof. exact (exit_run up low str_of number_text argparse pytest listdir find_module user_instance algorithm_factory container_factory estimator_factory DATE depth DIR). Qed.
  (** Without arguments, and for a subcommand without options, a hint is all. *)
  Theorem C72_no_arguments : forall p cwd lg m s ns sub, settings_init (m_files m) = Ok s -> usable_logs lg -> argparse [] = Parsed ns -> of_subcommand sub ns ->
    (forall n, off ns n) -> main [p] cwd lg m = (m, [Printed (txt "this is the CLI of the PyZEAL package. use '-h' for help.")], Ok tt).
  Proof. exact (run_nothing up low str_of number_text argparse pytest listdir find_module user_instance algorithm_factory container_factory estimator_factory DATE depth DIR). Qed.
  Theorem C72_bare_subcommand : forall p x cwd lg m s ns sub, settings_init (m_files m) = Ok s -> usable_logs lg -> argparse [x] = Parsed ns -> of_subcommand sub ns ->
    (forall n, off ns n) -> main [p; x] cwd lg m = (m, [Printed (txt "use '-h' with your subcommand for help.")], Ok tt).
  Proof. exact (run_bare up low str_of number_text argparse pytest listdir find_module user_instance algorithm_factory container_factory estimator_factory DATE depth DIR). Qed.

  (** view -p prints the six settings a new process would use, and changes nothing. *)
  Theorem C72_view : forall argv cwd lg m s ns, settings_init (m_files m) = Ok s -> usable_logs lg -> argparse (tl argv) = Parsed ns -> of_subcommand (Some View) ns ->
    on ns "print" -> off ns "test" -> (3 <= List.length argv)%nat ->
    exists c a e l, get KContainer s = VContainer c /\ get KAlgorithm s = VAlgorithm a /\ get KEstimator s = VEstimator e /\ get KLevel s = VLevel l /\
    main argv cwd lg m = (m, [Printed (
        txt "Currently active settings configuration:" ++ [10%N]
        ++ txt "-> default container:   " ++ txt (container_value c) ++ [10%N]
        ++ txt "-> default algorithm:   " ++ txt (algorithm_value a) ++ [10%N]
        ++ txt "-> default estimator:   " ++ txt (estimator_value e) ++ [10%N]
        ++ txt "-> default log level:   " ++ txt (level_name l) ++ [10%N]
        ++ txt "-> default verbosity:   " ++ str_of (get KVerbose s) ++ [10%N]
        ++ txt "-> default precision:   " ++ str_of (get KPrecision s))], Ok tt).
  Proof. exact (run_view up low str_of number_text argparse pytest listdir find_module user_instance algorithm_factory container_factory estimator_factory DATE depth DIR). Qed.
  (** A change command has the effects, the output and the exit code of C57 and C58 for the settings it asks for;
      the plugin directory is left alone. *)
  Theorem C72_change : forall argv cwd lg m s ns, settings_init (m_files m) = Ok s -> usable_logs lg -> argparse (tl argv) = Parsed ns -> let_through ns ->
    of_subcommand (Some Change) ns -> off ns "test" -> (3 <= List.length argv)%nat ->
    exists fs' ms r, run_change up low (change_request ns) (m_files m) = (fs', ms, r) /\ main argv cwd lg m = (mkMachine fs' (m_tree m), map Reported ms, r).
  Proof. exact (run_change_request up low str_of number_text argparse pytest listdir find_module user_instance algorithm_factory container_factory estimator_factory DATE depth DIR). Qed.
  (** -t runs the tests of the four modules in this order. *)
  Theorem C72_tests : forall argv cwd lg m s ns, settings_init (m_files m) = Ok s -> usable_logs lg -> argparse (tl argv) = Parsed ns -> of_subcommand None ns ->
    on ns "test" -> (2 <= List.length argv)%nat ->
    main argv cwd lg m = (pytest (txt "estimators") (pytest (txt "containers") (pytest (txt "algorithms") (pytest (txt "cli") m))),
      [Ran (txt "cli"); Ran (txt "algorithms"); Ran (txt "containers"); Ran (txt "estimators")], Ok tt).
  Proof. exact (run_tests up low str_of number_text argparse pytest listdir find_module user_instance algorithm_factory container_factory estimator_factory DATE depth DIR). Qed.

  (** plugin --install copies exactly the file its argument means in the working directory into the plugin
      directory ... *)
  Theorem C72_install : forall argv cwd lg m s ns p d n dir c, settings_init (m_files m) = Ok s -> usable_logs lg -> argparse (tl argv) = Parsed ns ->
    of_subcommand (Some Plugin) ns -> off ns "test" -> (3 <= List.length argv)%nat ->
    names ns "install" p -> off ns "list" -> off ns "modules" -> off ns "uninstall" ->
    tree_ok (m_tree m) -> plugin_dir (m_tree m) DIR d -> Forall plain cwd -> ~ In 0%N p ->
    meant_place cwd p = n :: dir -> m_tree m (n :: dir) = Some (NFile c) -> dir <> d -> m_tree m (n :: d) <> Some NDir ->
    exists fs', differs_at (n :: d) (Some (NFile c)) (m_tree m) fs' /\
      main argv cwd lg m = (mkMachine (m_files m) fs', [installing p; Printed (txt "[success] plugin was installed!")], Ok tt).
  Proof. exact (run_install up low str_of number_text argparse pytest listdir find_module user_instance algorithm_factory container_factory estimator_factory DATE depth DIR). Qed.
  (** ... and ends with code 2, changing nothing, if there is no such file (--uninstall is not reached then). *)
  Theorem C72_install_missing : forall argv cwd lg m s ns p, settings_init (m_files m) = Ok s -> usable_logs lg -> argparse (tl argv) = Parsed ns ->
    of_subcommand (Some Plugin) ns -> off ns "test" -> (3 <= List.length argv)%nat ->
    names ns "install" p -> off ns "list" -> off ns "modules" ->
    tree_ok (m_tree m) -> Forall plain cwd -> ~ In 0%N p -> m_tree m (meant_place cwd p) = None ->
    main argv cwd lg m = (m, [installing p; Printed (txt "[error] the requested plugin does not exist - abort!")], Err (SystemExit 2)).
  Proof. exact (run_install_missing up low str_of number_text argparse pytest listdir find_module user_instance algorithm_factory container_factory estimator_factory DATE depth DIR). Qed.
  Theorem C72_uninstall : forall argv cwd lg m s ns f d, settings_init (m_files m) = Ok s -> usable_logs lg -> argparse (tl argv) = Parsed ns ->
    of_subcommand (Some Plugin) ns -> off ns "test" -> (3 <= List.length argv)%nat ->
    names ns "uninstall" f -> off ns "list" -> off ns "modules" -> off ns "install" -> plugin_dir (m_tree m) DIR d -> plain f ->
    match m_tree m (f :: d) with
    | Some (NFile _) => exists fs', differs_at (f :: d) None (m_tree m) fs' /\
        main argv cwd lg m = (mkMachine (m_files m) fs', [uninstalling f; Printed (txt "[success] plugin was uninstalled!")], Ok tt)
    | _ => main argv cwd lg m = (m, [uninstalling f; Printed (txt "[error] the requested plugin does not exist - abort!")], Err (SystemExit 2))
    end.
  Proof. exact (run_uninstall up low str_of number_text argparse pytest listdir find_module user_instance algorithm_factory container_factory estimator_factory DATE depth DIR). Qed.
  (** With both options one plugin is replaced by another. *)
  Theorem C72_replace : forall argv cwd lg m s ns p f d n dir c c', settings_init (m_files m) = Ok s -> usable_logs lg -> argparse (tl argv) = Parsed ns ->
    of_subcommand (Some Plugin) ns -> off ns "test" -> (3 <= List.length argv)%nat ->
    names ns "install" p -> names ns "uninstall" f -> off ns "list" -> off ns "modules" ->
    tree_ok (m_tree m) -> plugin_dir (m_tree m) DIR d -> Forall plain cwd -> ~ In 0%N p ->
    meant_place cwd p = n :: dir -> m_tree m (n :: dir) = Some (NFile c) -> dir <> d -> m_tree m (n :: d) <> Some NDir ->
    plain f -> f <> n -> m_tree m (f :: d) = Some (NFile c') ->
    exists fs', (fs' (n :: d) = Some (NFile c) /\ fs' (f :: d) = None /\ forall q, q <> n :: d -> q <> f :: d -> fs' q = m_tree m q) /\
      main argv cwd lg m = (mkMachine (m_files m) fs', [installing p; Printed (txt "[success] plugin was installed!");
         uninstalling f; Printed (txt "[success] plugin was uninstalled!")], Ok tt).
  Proof. exact (run_replace up low str_of number_text argparse pytest listdir find_module user_instance algorithm_factory container_factory estimator_factory DATE depth DIR). Qed.
  (** plugin -m prints the names in the plugin directory that do not begin with two underscores. *)
  Theorem C72_modules : forall argv cwd lg m s ns names_, settings_init (m_files m) = Ok s -> usable_logs lg -> argparse (tl argv) = Parsed ns ->
    of_subcommand (Some Plugin) ns -> off ns "test" -> (3 <= List.length argv)%nat ->
    on ns "modules" -> off ns "list" -> off ns "install" -> off ns "uninstall" -> listdir (m_tree m) = Ok names_ ->
    exists shown, main argv cwd lg m = (m, [Printed (txt "installation directory contents:"); Printed (txt "--------------------------------")] ++ map Printed shown, Ok tt) /\
      forall x, In x shown <-> In x names_ /\ ~ private x.
  Proof. exact (run_modules up low str_of number_text argparse pytest listdir find_module user_instance algorithm_factory container_factory estimator_factory DATE depth DIR). Qed.
  (** As long as pyzeal_plugins cannot be imported, plugin -l fails as soon as a Python file is installed. *)
  Theorem C72_list_fails_after_install : forall argv cwd lg m s ns names_, settings_init (m_files m) = Ok s -> usable_logs lg -> argparse (tl argv) = Parsed ns ->
    of_subcommand (Some Plugin) ns -> off ns "test" -> (3 <= List.length argv)%nat -> on ns "list" ->
    find_module (txt "pyzeal_plugins") = Err ModuleNotFoundError -> listdir (m_tree m) = Ok names_ -> Forall ascii names_ ->
    (exists n stem, In n names_ /\ ~ private n /\ python_file n stem) ->
    exists e, (e = ModuleNotFoundError \/ e = ImportError) /\
    main argv cwd lg m = (m, [Printed (txt "currently installed Plugins:"); Printed (txt "----------------------------")], Err e).
  Proof. exact (run_list up low str_of number_text argparse pytest listdir find_module user_instance algorithm_factory container_factory estimator_factory DATE depth DIR). Qed.

  (** Any history of runs (without -t) leaves settings a new process can read; the settings are those of the change
      commands alone, in their order (run one by one as in C57), the plugin directory is that of the plugin
      commands alone. *)
  Theorem C72_histories : forall h m s, argparse_ok argparse -> working m s -> Forall (fun i => usable_logs (i_logs i) /\ no_tests argparse i) h ->
    let run := fun i m => main (i_argv i) (i_cwd i) (i_logs i) m in
    (exists s', settings_init (m_files (machine_after run h m)) = Ok s') /\
    m_files (machine_after run h m) = runs up low (change_requests argparse h) (m_files m) /\
    m_files (machine_after run h m) = m_files (machine_after run (filter (selects argparse Change) h) m) /\
    m_tree (machine_after run h m) = m_tree (machine_after run (filter (selects argparse Plugin) h) m).
  Proof. exact (history_spec up low str_of number_text argparse pytest listdir find_module user_instance algorithm_factory container_factory estimator_factory DATE depth DIR). Qed.
End C72.
(** The place a path means is the one the file system resolves the absolute path to. *)
Theorem C72_absolute_paths : forall fs cwd p n dir c, tree_ok fs -> Forall plain cwd -> ~ In 0%N p -> meant_place cwd p = n :: dir -> fs (n :: dir) = Some (NFile c) ->
  forall cwd', leads_to fs cwd' (abspath cwd p) (n :: dir) c.
Proof. exact abspath_leads. Qed.

Print Assumptions C72_unreadable_settings.
Print Assumptions C72_parser_exit.
Print Assumptions C72_no_arguments.
Print Assumptions C72_bare_subcommand.
Print Assumptions C72_view.
Print Assumptions C72_change.
Print Assumptions C72_tests.
Print Assumptions C72_install.
Print Assumptions C72_install_missing.
Print Assumptions C72_uninstall.
Print Assumptions C72_replace.
Print Assumptions C72_modules.
Print Assumptions C72_list_fails_after_install.
Print Assumptions C72_histories.
Print Assumptions C72_absolute_paths.

Definition fac2 : factory stype obj files := mkFactory [] (fun _ w => (w, Ok (OUser 1))).
Definition logs2 : logging := mkLogging 0 (fun _ => Missing) [] (mkLogger 30 []) [] [].
Definition machine2 : machine := mkMachine fs0 tree0.
Definition run2 (words : list string) (cwd : place) (m : machine) : outcome :=
  mainPyZEAL (fun _ => []) (fun _ => []) (fun _ => []) (fun _ => []) argparse0 (fun _ m => m) (fun _ => Ok [txt "__init__.py"]) (fun _ => Err ModuleNotFoundError)
    (fun _ _ => true) fac2 fac2 fac2 (mkDate 2023 1 1 0 0 0) 3 DIR0 (map txt words) cwd logs2 m.
(** A machine, command lines and a parser meeting the hypotheses: installing a file, changing settings, --help. *)
Example C72_nonvacuous : argparse_ok argparse0 /\ working machine2 service0 /\ usable_logs logs2 /\ Forall plain [txt "home"] /\
  meant_place [txt "home"] (txt "../home/./my.py") = [txt "my.py"; txt "home"] /\
  (let '(m, o, r) := run2 ["pyzeal"; "plugin"; "--install"; "../home/./my.py"]%string [txt "home"] machine2 in
   r = Ok tt /\ o = [installing (txt "../home/./my.py"); Printed (txt "[success] plugin was installed!")] /\
   m_tree m [txt "my.py"; txt "plugins"; txt "pz"] = Some (NFile (txt "mine")) /\ m_tree machine2 [txt "my.py"; txt "plugins"; txt "pz"] = None) /\
  (let '(m, o, r) := run2 ["pyzeal"; "change"; "--algorithm"; "newton_grid"; "--precision"; "6"; "7"]%string [] machine2 in
   r = Ok tt /\ List.length o = 2%nat /\ exists s, settings_init (m_files m) = Ok s /\ get KAlgorithm s = VAlgorithm NEWTON_GRID) /\
  snd (run2 ["pyzeal"; "--help"]%string [] machine2) = Err (SystemExit 0) /\
  snd (run2 ["pyzeal"; "--help"]%string [] (mkMachine (mkFiles (default_file fs0) (Some (txt "{"))) tree0)) <> Err (SystemExit 0).
Proof.
  split; [exact argparse0_ok|]. split; [exact (conj fs0_ok fs0_init)|]. split; [intro d; discriminate|].
  split; [constructor; [|constructor]; repeat split; try discriminate; cbn; intuition discriminate|]. split; [reflexivity|].
  split; [vm_compute; repeat split|]. split; [|split; [vm_compute; reflexivity|vm_compute; discriminate]].
  destruct (run2 ["pyzeal"; "change"; "--algorithm"; "newton_grid"; "--precision"; "6"; "7"]%string [] machine2) as [[m o] r] eqn:E.
  vm_compute in E. injection E as <- <- <-. split; [reflexivity|]. split; [reflexivity|]. eexists. split; [vm_compute; reflexivity|]. reflexivity.
Qed.
