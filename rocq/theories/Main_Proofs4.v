(** * Proofs about the command line program: what the commands do *)
From Verif Require Import PyBase Json_Model Json_Proofs Settings_Model Settings_Spec Settings_Proofs Locator_Model Locator_Spec Cli_Model Cli_Spec
  Factory_Spec Factory_Proofs Cli_Proofs2
  Loader_Model Loader_Spec Loader_Proofs Log_Model Log_Spec Log_Proofs Init_Model Init_Spec Init_Proofs Init_Proofs2 Install_Model Install_Spec Install_Proofs
  Main_Model Main_Spec Main_Proofs Main_Proofs2 Main_Proofs3.
Open Scope list_scope.

Lemma on_true ns n : on ns n -> is_true (getattr ns n (BoolV false)) = true.
Proof. unfold on, getattr. intros ->. reflexivity. Qed.
Lemma names_text ns n t : names ns n t -> as_text (getattr ns n (TextV [])) = Some t /\ exists c t', t = c :: t'.
Proof. unfold names, getattr. intros [-> N]. split; [reflexivity|]. destruct t as [|c t']; [contradiction|eauto]. Qed.
Lemma init_enums fs s : settings_init fs = Ok s -> exists c a e l, get KContainer s = VContainer c /\ get KAlgorithm s = VAlgorithm a /\
  get KEstimator s = VEstimator e /\ get KLevel s = VLevel l.
Proof.
  unfold settings_init. intro H. destruct (core_init fs) as [x|]; [|discriminate]. cbn [bind] in H.
  destruct (load_settings (default_file fs) []) as [x1|]; [|discriminate]. cbn [bind] in H.
  destruct (load_settings (custom_file fs) x1) as [x2|]; [|discriminate]. cbn [bind] in H.
  destruct (index (key_name KLevel) x2) as [vl|]; [|discriminate]. cbn [bind] in H.
  destruct (init_precision _) as [prec|]; [|discriminate]. cbn [bind] in H.
  destruct (find_level vl) as [l|]; [|discriminate]. destruct (init_verbose _) as [b|]; [|discriminate]. destruct prec as [p|]; [|discriminate].
  injection H as <-. exists (fst (fst x)), (snd (fst x)), (snd x), l. repeat split.
Qed.

Section Run.
  Variables up low : N -> text.
  Variable str_of : pyval -> text.
  Variable number_text : Z -> text.
  Variable argparse : list text -> parse.
  Variable pytest : text -> machine -> machine.
  Variable listdir : tree -> res (list text).
  Variable find_module : text -> res (@module stype obj files).
  Variable user_instance : nat -> stype -> bool.
  Variables algorithm_factory container_factory estimator_factory : factory stype obj files.
  Variable DATE : date.
  Variable depth : nat.
  Variable DIR : text.
  Notation main := (mainPyZEAL up low str_of number_text argparse pytest listdir find_module user_instance algorithm_factory container_factory
                      estimator_factory DATE (S (S depth)) DIR).
  Notation by_sub := (run_by_subcommand up low str_of number_text argparse pytest listdir find_module user_instance algorithm_factory container_factory
                      estimator_factory DATE depth DIR).

  (** Without -t and with more than one argument nothing is added. *)
  Lemma around_plain argv ns f m : off ns "test" -> (3 <= List.length argv)%nat -> around pytest argv ns f m = f m.
  Proof.
    intros T L. unfold around, testing_part. rewrite (off_false ns "test" T).
    assert (Nat.ltb (List.length argv) 2 = false) as -> by (apply Nat.ltb_ge; lia). assert (Nat.eqb (List.length argv) 2 = false) as -> by (apply Nat.eqb_neq; lia).
    cbn [when_ andb negb]. rewrite seq_done. unfold handleTestingOption. cbn [when_].
    destruct (f m) as [[m' o'] [[]|e]]; cbn [seq_ done_]; rewrite ?app_nil_r; reflexivity.
  Qed.

  Theorem run_nothing p cwd lg m s ns sub : settings_init (m_files m) = Ok s -> usable_logs lg -> argparse [] = Parsed ns -> of_subcommand sub ns ->
    (forall n, off ns n) -> main [p] cwd lg m = (m, [Printed (txt "this is the CLI of the PyZEAL package. use '-h' for help.")], Ok tt).
  Proof.
    intros E U P O F. rewrite (by_sub [p] cwd lg m s ns sub E U P O).
    assert (X : subcommand_effect up low str_of number_text listdir find_module DIR s cwd ns sub m = done_ m).
    { destruct sub as [[| |]|]; cbn [subcommand_effect]; [exact (view_idle str_of s ns m (fun n _ => F n))|exact (change_idle up low s ns m (fun n _ => F n))| |reflexivity].
      unfold plugins, plugin_part. cbn [p_list p_modules p_install p_uninstall].
      rewrite (off_false ns "list") by apply F. rewrite (off_false ns "modules") by apply F. cbn [when_]. rewrite !seq_done.
      rewrite given_off by (apply off_text, F). rewrite seq_done. apply given_off. apply off_text, F. }
    unfold around, testing_part. rewrite (off_false ns "test") by apply F. cbn [List.length Nat.ltb Nat.leb Nat.eqb when_ andb say seq_]. rewrite X.
    rewrite seq_done. reflexivity.
  Qed.
  Theorem run_bare p x cwd lg m s ns sub : settings_init (m_files m) = Ok s -> usable_logs lg -> argparse [x] = Parsed ns -> of_subcommand sub ns ->
    (forall n, off ns n) -> main [p; x] cwd lg m = (m, [Printed (txt "use '-h' with your subcommand for help.")], Ok tt).
  Proof.
    intros E U P O F. rewrite (by_sub [p; x] cwd lg m s ns sub E U P O).
    assert (X : subcommand_effect up low str_of number_text listdir find_module DIR s cwd ns sub m = done_ m).
    { destruct sub as [[| |]|]; cbn [subcommand_effect]; [exact (view_idle str_of s ns m (fun n _ => F n))|exact (change_idle up low s ns m (fun n _ => F n))| |reflexivity].
      unfold plugins, plugin_part. cbn [p_list p_modules p_install p_uninstall].
      rewrite (off_false ns "list") by apply F. rewrite (off_false ns "modules") by apply F. cbn [when_]. rewrite !seq_done.
      rewrite given_off by (apply off_text, F). rewrite seq_done. apply given_off. apply off_text, F. }
    unfold around, testing_part. rewrite (off_false ns "test") by apply F. cbn [List.length Nat.ltb Nat.leb Nat.eqb when_ andb negb]. rewrite seq_done, X, seq_done.
    reflexivity.
  Qed.

  Theorem run_view argv cwd lg m s ns : settings_init (m_files m) = Ok s -> usable_logs lg -> argparse (tl argv) = Parsed ns -> of_subcommand (Some View) ns ->
    on ns "print" -> off ns "test" -> (3 <= List.length argv)%nat ->
    exists c a e l, get KContainer s = VContainer c /\ get KAlgorithm s = VAlgorithm a /\ get KEstimator s = VEstimator e /\ get KLevel s = VLevel l /\
    main argv cwd lg m = (m, [Printed (
        txt "Currently active settings configuration:" ++ [10%N]
        ++ txt "-> default container:   " ++ txt (container_value c) ++ [10%N]
        ++ txt "-> default algorithm:   " ++ txt (algorithm_value a) ++ [10%N]
        ++ txt "-> default estimator:   " ++ txt (estimator_value e) ++ [10%N]
        ++ txt "-> default log level:   " ++ txt (level_name l) ++ [10%N]
        ++ txt "-> default verbosity:   " ++ str_of (get KVerbose s) ++ [10%N]
        ++ txt "-> default precision:   " ++ str_of (get KPrecision s))], Ok tt).
  Proof.
    intros E U P O H T L. destruct (init_enums _ _ E) as (c & a & e & l & G1 & G2 & G3 & G4). exists c, a, e, l.
    do 4 (split; [assumption|]). rewrite (by_sub argv cwd lg m s ns (Some View) E U P O), around_plain by assumption.
    cbn [subcommand_effect]. unfold handleViewSubcommand, settings_part. cbn [a_print]. rewrite (on_true ns "print" H). cbn [when_].
    unfold settings_str. rewrite G1, G2, G3, G4. cbn [enum_value bind]. reflexivity.
  Qed.
  Theorem run_change_command argv cwd lg m s ns : settings_init (m_files m) = Ok s -> usable_logs lg -> argparse (tl argv) = Parsed ns -> of_subcommand (Some Change) ns ->
    off ns "test" -> (3 <= List.length argv)%nat ->
    exists fs' ms r, run_change up low (settings_part ns) (m_files m) = (fs', ms, r) /\ main argv cwd lg m = (mkMachine fs' (m_tree m), map Reported ms, r).
  Proof.
    intros E U P O T L. unfold run_change. rewrite E.
    destruct (handleChangeSubcommand up low (settings_part ns) (mkCli s (m_files m) [])) as [st r] eqn:H. exists (c_files st), (c_out st), r. split; [reflexivity|].
    rewrite (by_sub argv cwd lg m s ns (Some Change) E U P O), around_plain by assumption. cbn [subcommand_effect]. unfold handleChange. rewrite H. reflexivity.
  Qed.
  Theorem run_tests argv cwd lg m s ns : settings_init (m_files m) = Ok s -> usable_logs lg -> argparse (tl argv) = Parsed ns -> of_subcommand None ns ->
    on ns "test" -> (2 <= List.length argv)%nat ->
    main argv cwd lg m = (pytest (txt "estimators") (pytest (txt "containers") (pytest (txt "algorithms") (pytest (txt "cli") m))),
      [Ran (txt "cli"); Ran (txt "algorithms"); Ran (txt "containers"); Ran (txt "estimators")], Ok tt).
  Proof.
    intros E U P O T L. rewrite (by_sub argv cwd lg m s ns None E U P O). unfold around, testing_part. rewrite (on_true ns "test" T).
    assert (Nat.ltb (List.length argv) 2 = false) as -> by (apply Nat.ltb_ge; lia). rewrite andb_comm. cbn [negb andb when_ subcommand_effect]. rewrite !seq_done.
    reflexivity.
  Qed.

  (** ** Plugins *)
  Lemma plugin_run argv cwd lg m s ns : settings_init (m_files m) = Ok s -> usable_logs lg -> argparse (tl argv) = Parsed ns -> of_subcommand (Some Plugin) ns ->
    off ns "test" -> (3 <= List.length argv)%nat -> main argv cwd lg m = plugins low number_text listdir find_module DIR cwd (plugin_part ns) m.
  Proof. intros E U P O T L. rewrite (by_sub argv cwd lg m s ns (Some Plugin) E U P O), around_plain by assumption. reflexivity. Qed.

  Lemma install_ok cwd m p d n dir c : tree_ok (m_tree m) -> plugin_dir (m_tree m) DIR d -> Forall plain cwd -> ~ In 0%N p ->
    meant_place cwd p = n :: dir -> m_tree m (n :: dir) = Some (NFile c) -> dir <> d -> m_tree m (n :: d) <> Some NDir ->
    exists fs', installPlugin DIR cwd (abspath cwd p) (m_tree m) = (fs', Ok true) /\ differs_at (n :: d) (Some (NFile c)) (m_tree m) fs'.
  Proof.
    intros T D C Z M F N ND.
    assert (LT : leads_to (m_tree m) cwd (abspath cwd p) (n :: dir) c).
    { split; [|exact F]. rewrite <- M. apply abspath_lookup; try assumption. rewrite M, F. discriminate. }
    pose proof (abspath_basename cwd p n dir C Z M) as B.
    destruct (install_file (m_tree m) DIR d cwd T D (abspath cwd p) (n :: dir) c LT) as (fs' & I & X).
    - rewrite B. intro E. injection E as E. contradiction.
    - rewrite B. exact ND.
    - rewrite B in X. exists fs'. auto.
  Qed.
  Theorem run_install argv cwd lg m s ns p d n dir c : settings_init (m_files m) = Ok s -> usable_logs lg -> argparse (tl argv) = Parsed ns ->
    of_subcommand (Some Plugin) ns -> off ns "test" -> (3 <= List.length argv)%nat ->
    names ns "install" p -> off ns "list" -> off ns "modules" -> off ns "uninstall" ->
    tree_ok (m_tree m) -> plugin_dir (m_tree m) DIR d -> Forall plain cwd -> ~ In 0%N p ->
    meant_place cwd p = n :: dir -> m_tree m (n :: dir) = Some (NFile c) -> dir <> d -> m_tree m (n :: d) <> Some NDir ->
    exists fs', differs_at (n :: d) (Some (NFile c)) (m_tree m) fs' /\
      main argv cwd lg m = (mkMachine (m_files m) fs', [installing p; Printed (txt "[success] plugin was installed!")], Ok tt).
  Proof.
    intros E U P O T L I1 I2 I3 I4 TO D C Z M F N ND.
    destruct (install_ok cwd m p d n dir c TO D C Z M F N ND) as (fs' & I & X). exists fs'. split; [exact X|].
    rewrite (plugin_run argv cwd lg m s ns E U P O T L). unfold plugins, plugin_part. cbn [p_list p_modules p_install p_uninstall].
    rewrite (off_false ns "list" I2), (off_false ns "modules" I3). cbn [when_]. rewrite !seq_done.
    destruct (names_text ns "install" p I1) as (-> & c0 & t0 & ->). cbn [given_]. unfold install. cbn [say seq_]. rewrite I. unfold report. cbn [fst snd].
    cbn [say seq_]. rewrite given_off by (apply off_text; exact I4). cbn [done_ app]. reflexivity.
  Qed.
  (** A missing file: the command ends there. *)
  Theorem run_install_missing argv cwd lg m s ns p : settings_init (m_files m) = Ok s -> usable_logs lg -> argparse (tl argv) = Parsed ns ->
    of_subcommand (Some Plugin) ns -> off ns "test" -> (3 <= List.length argv)%nat ->
    names ns "install" p -> off ns "list" -> off ns "modules" ->
    tree_ok (m_tree m) -> Forall plain cwd -> ~ In 0%N p -> m_tree m (meant_place cwd p) = None ->
    main argv cwd lg m = (m, [installing p; Printed (txt "[error] the requested plugin does not exist - abort!")], Err (SystemExit 2)).
  Proof.
    intros E U P O T L I1 I2 I3 TO C Z M. rewrite (plugin_run argv cwd lg m s ns E U P O T L). unfold plugins, plugin_part. cbn [p_list p_modules p_install p_uninstall].
    rewrite (off_false ns "list" I2), (off_false ns "modules" I3). cbn [when_]. rewrite !seq_done.
    destruct (names_text ns "install" p I1) as (-> & c0 & t0 & ->). cbn [given_]. unfold install. cbn [say seq_].
    rewrite (install_missing (m_tree m) DIR cwd _ (abspath_exists (m_tree m) cwd cwd _ TO C Z M)). unfold report. cbn [fst snd seq_]. rewrite machine_eta. reflexivity.
  Qed.
  Theorem run_uninstall argv cwd lg m s ns f d : settings_init (m_files m) = Ok s -> usable_logs lg -> argparse (tl argv) = Parsed ns ->
    of_subcommand (Some Plugin) ns -> off ns "test" -> (3 <= List.length argv)%nat ->
    names ns "uninstall" f -> off ns "list" -> off ns "modules" -> off ns "install" -> plugin_dir (m_tree m) DIR d -> plain f ->
    match m_tree m (f :: d) with
    | Some (NFile _) => exists fs', differs_at (f :: d) None (m_tree m) fs' /\
        main argv cwd lg m = (mkMachine (m_files m) fs', [uninstalling f; Printed (txt "[success] plugin was uninstalled!")], Ok tt)
    | _ => main argv cwd lg m = (m, [uninstalling f; Printed (txt "[error] the requested plugin does not exist - abort!")], Err (SystemExit 2))
    end.
  Proof.
    intros E U P O T L I1 I2 I3 I4 D F. rewrite (plugin_run argv cwd lg m s ns E U P O T L). unfold plugins, plugin_part. cbn [p_list p_modules p_install p_uninstall].
    rewrite (off_false ns "list" I2), (off_false ns "modules" I3). cbn [when_]. rewrite !seq_done.
    rewrite given_off by (apply off_text; exact I4). rewrite seq_done. destruct (names_text ns "uninstall" f I1) as (-> & c0 & t0 & Ef). subst f. cbn [given_].
    unfold uninstall. cbn [say seq_]. pose proof (uninstall_plain (m_tree m) DIR d cwd D (c0 :: t0) F) as X.
    match goal with |- match ?v with _ => _ end => match type of X with match ?w with _ => _ end => change w with v in X; destruct v as [[ct|]|] end end.
    - destruct X as (fs' & X1 & X2). exists fs'. split; [exact X2|]. rewrite X1. reflexivity.
    - rewrite X. unfold report. cbn [fst snd seq_]. rewrite machine_eta. reflexivity.
    - rewrite X. unfold report. cbn [fst snd seq_]. rewrite machine_eta. reflexivity.
  Qed.
  (** Both options: first the installation, then the removal. *)
  Theorem run_replace argv cwd lg m s ns p f d n dir c c' : settings_init (m_files m) = Ok s -> usable_logs lg -> argparse (tl argv) = Parsed ns ->
    of_subcommand (Some Plugin) ns -> off ns "test" -> (3 <= List.length argv)%nat ->
    names ns "install" p -> names ns "uninstall" f -> off ns "list" -> off ns "modules" ->
    tree_ok (m_tree m) -> plugin_dir (m_tree m) DIR d -> Forall plain cwd -> ~ In 0%N p ->
    meant_place cwd p = n :: dir -> m_tree m (n :: dir) = Some (NFile c) -> dir <> d -> m_tree m (n :: d) <> Some NDir ->
    plain f -> f <> n -> m_tree m (f :: d) = Some (NFile c') ->
    exists fs', (fs' (n :: d) = Some (NFile c) /\ fs' (f :: d) = None /\ forall q, q <> n :: d -> q <> f :: d -> fs' q = m_tree m q) /\
      main argv cwd lg m = (mkMachine (m_files m) fs', [installing p; Printed (txt "[success] plugin was installed!");
         uninstalling f; Printed (txt "[success] plugin was uninstalled!")], Ok tt).
  Proof.
    intros E U P O T L I1 I4 I2 I3 TO D C Z M F N ND PF NF FF.
    destruct (install_ok cwd m p d n dir c TO D C Z M F N ND) as (fs1 & I & X).
    assert (D1 : plugin_dir fs1 DIR d).
    { apply (same_dirs_plugin_dir (m_tree m)); [|exact D]. apply (differs_same_dirs (n :: d) (Some (NFile c))); [exact ND|discriminate|exact X]. }
    pose proof (uninstall_plain fs1 DIR d cwd D1 f PF) as Y. destruct X as [X1 X2]. rewrite X2 in Y by congruence. rewrite FF in Y.
    destruct Y as (fs2 & Y1 & Y2 & Y3). exists fs2. split.
    { split; [rewrite Y3 by congruence; exact X1|]. split; [exact Y2|]. intros q Q1 Q2. rewrite Y3, X2 by assumption. reflexivity. }
    rewrite (plugin_run argv cwd lg m s ns E U P O T L). unfold plugins, plugin_part. cbn [p_list p_modules p_install p_uninstall].
    rewrite (off_false ns "list" I2), (off_false ns "modules" I3). cbn [when_]. rewrite !seq_done.
    destruct (names_text ns "install" p I1) as (-> & c0 & t0 & ->). destruct (names_text ns "uninstall" f I4) as (-> & c1 & t1 & Ef). subst f. cbn [given_].
    unfold install. cbn [say seq_]. rewrite I. unfold report. cbn [fst snd]. unfold uninstall. cbn [say seq_ m_tree m_files]. rewrite Y1. reflexivity.
  Qed.
  Theorem run_modules argv cwd lg m s ns names_ : settings_init (m_files m) = Ok s -> usable_logs lg -> argparse (tl argv) = Parsed ns ->
    of_subcommand (Some Plugin) ns -> off ns "test" -> (3 <= List.length argv)%nat ->
    on ns "modules" -> off ns "list" -> off ns "install" -> off ns "uninstall" -> listdir (m_tree m) = Ok names_ ->
    exists shown, main argv cwd lg m = (m, [Printed (txt "installation directory contents:"); Printed (txt "--------------------------------")] ++ map Printed shown, Ok tt) /\
      forall x, In x shown <-> In x names_ /\ ~ private x.
  Proof.
    intros E U P O T L I1 I2 I3 I4 LD. exists (discoverModules names_). split; [|intro x; apply discovery].
    rewrite (plugin_run argv cwd lg m s ns E U P O T L). unfold plugins, plugin_part. cbn [p_list p_modules p_install p_uninstall].
    rewrite (off_false ns "list" I2), (on_true ns "modules" I1). cbn [when_]. rewrite !seq_done. 
    rewrite (seq_ext _ _ done_).
    - unfold listModules. cbn [say seq_]. rewrite LD. cbn [seq_ done_ app]. rewrite app_nil_r. reflexivity.
    - intro m0. rewrite given_off by (apply off_text; exact I3). rewrite seq_done. apply given_off. apply off_text. exact I4.
  Qed.
  Theorem run_list argv cwd lg m s ns names_ : settings_init (m_files m) = Ok s -> usable_logs lg -> argparse (tl argv) = Parsed ns ->
    of_subcommand (Some Plugin) ns -> off ns "test" -> (3 <= List.length argv)%nat -> on ns "list" ->
    find_module (txt "pyzeal_plugins") = Err ModuleNotFoundError -> listdir (m_tree m) = Ok names_ -> Forall ascii names_ ->
    (exists n stem, In n names_ /\ ~ private n /\ python_file n stem) ->
    exists e, (e = ModuleNotFoundError \/ e = ImportError) /\
    main argv cwd lg m = (m, [Printed (txt "currently installed Plugins:"); Printed (txt "----------------------------")], Err e).
  Proof.
    intros E U P O T L I1 FM LD A Q. destruct (proj1 (never_loads stype_eqb find_module low names_ (@empty_locator stype obj files) FM A) Q) as (e & LO & K).
    exists e. split; [exact K|]. rewrite (plugin_run argv cwd lg m s ns E U P O T L). unfold plugins, plugin_part. cbn [p_list p_modules p_install p_uninstall].
    rewrite (on_true ns "list" I1). cbn [when_]. unfold list_plugins. rewrite LD, LO. cbn [snd bind seq_ app]. reflexivity.
  Qed.
End Run.
