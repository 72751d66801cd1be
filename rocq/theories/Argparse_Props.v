(** * Property C78: the command line's language *)
From Verif Require Import PyBase Json_Model Settings_Model Settings_Spec Settings_Proofs3 Locator_Model Cli_Model Cli_Spec Loader_Model Loader_Spec Log_Model
  Init_Model Init_Spec Install_Model Install_Spec Install_Proofs Main_Model Main_Spec Main_Proofs5 Main_Props Argparse_Model Argparse_Spec
  Argparse_Proofs5 Argparse_Proofs6 Argparse_Proofs7.
Open Scope list_scope.

Section C78.
  Variable int_of : text -> option Z.
  Variable unicode_digit : N -> bool.
  Notation parser := (parse_args int_of unicode_digit).
  Notation means := (means int_of unicode_digit).
  Notation pieces := (pieces int_of unicode_digit).

  (** The parser accepts exactly the command lines of the language and sets exactly the attributes they mean
      (the later of two settings counts; options that are not given are off). *)
  Theorem C78_accepted_lines : forall ws ns, parser ws = Parsed ns -> exists sub a, means ws sub a /\ forall n, dget String.eqb n ns = attribute sub a n.
  Proof. exact (accepted_means int_of unicode_digit). Qed.
  Theorem C78_understood_lines : forall ws sub a, means ws sub a -> exists ns, parser ws = Parsed ns /\ let_through ns /\ of_subcommand sub ns /\
    (forall n, dget String.eqb n ns = attribute sub a n) /\
    (forall n, on ns n <-> setting a n = Some (BoolV true)) /\
    (forall n t, t <> [] -> (names ns n t <-> setting a n = Some (TextV t))) /\
    (forall n, off ns n <-> setting a n = None \/ setting a n = Some (TextV [])).
  Proof. exact (understood_line int_of unicode_digit). Qed.
  (** Every other command line ends the program: with code 2, or with code 0 if a word asks for help or the
      version ... *)
  Theorem C78_exit_codes : forall ws c, parser ws = Exits c -> c = 0%Z \/ c = 2%Z.
  Proof. exact (exit_codes int_of unicode_digit). Qed.
  Theorem C78_exit_zero_only_if_asked : forall ws, parser ws = Exits 0 -> exists w, In w ws /\ (ends Top w \/ exists c, In (sub_name c) ws /\ ends (Sub c) w).
  Proof. exact (zero_words int_of unicode_digit). Qed.
  Theorem C78_rejected : forall ws, (forall sub a, ~ means ws sub a) -> (forall w, In w ws -> ~ ends Top w /\ forall c, ~ ends (Sub c) w) -> parser ws = Exits 2.
  Proof. exact (rejected int_of unicode_digit). Qed.
  (** ... which it does after options that are understood, whatever follows (unless that has a word like --=x). *)
  Theorem C78_help : forall ws a e w rest, pieces Top ws a -> denotes Top e w -> e_takes e = Ends -> Forall (fun v => ~ ambiguous v) rest ->
    parser (ws ++ w :: rest) = Exits 0.
  Proof. exact (help_top int_of unicode_digit). Qed.
  Theorem C78_subcommand_help : forall ws a c rest b e w more, pieces Top ws a -> pieces (Sub c) rest b -> denotes (Sub c) e w -> e_takes e = Ends ->
    Forall (fun v => ~ ambiguous v) more -> parser (ws ++ sub_name c :: rest ++ w :: more) = Exits 0.
  Proof. exact (help_sub int_of unicode_digit). Qed.
  (** A command line has one meaning. *)
  Theorem C78_one_meaning : forall ws sub a sub' a', means ws sub a -> means ws sub' a' -> sub = sub' /\ forall n, setting a n = setting a' n.
  Proof. exact (one_meaning int_of unicode_digit). Qed.

  (** What C72 assumes of the parser holds. *)
  Theorem C78_parser_ok : argparse_ok parser.
  Proof. exact (parser_ok int_of unicode_digit). Qed.

  (** ** The program with this parser *)
  Variables up low : N -> text.
  Variable str_of : pyval -> text.
  Variable number_text : Z -> text.
  Variable pytest : text -> machine -> machine.
  Variable listdir : tree -> res (list text).
  Variable find_module : text -> res (@module stype obj files).
  Variable user_instance : nat -> stype -> bool.
  Variables algorithm_factory container_factory estimator_factory : factory stype obj files.
  Variable DATE : date.
  Variable depth : nat.
  Variable DIR : text.
  Notation main := (mainPyZEAL up low str_of number_text parser pytest listdir find_module user_instance algorithm_factory container_factory
                      estimator_factory DATE (S (S depth)) DIR).
  (** A change command: a new process uses the asked settings, and the others as before. *)
  Theorem C78_change_command : forall p ws a cwd lg m s, means ws (Some Change) a -> setting a "test" = None -> (2 <= List.length ws)%nat ->
    files_ok (m_files m) -> settings_init (m_files m) = Ok s -> usable_logs lg ->
    exists m' out s', main (p :: ws) cwd lg m = (m', out, Ok tt) /\ settings_init (m_files m') = Ok s' /\ m_tree m' = m_tree m /\
      (forall k v, asked a k v -> already v (get k s')) /\ (forall k, (forall v, ~ asked a k v) -> get k s' = get k s).
  Proof. exact (change_command int_of unicode_digit up low str_of number_text pytest listdir find_module user_instance algorithm_factory container_factory estimator_factory DATE depth DIR). Qed.
  (** view -p, in any of its spellings, prints the six settings. *)
  Theorem C78_view_command : forall p ws a cwd lg m s, means ws (Some View) a -> setting a "print" = Some (BoolV true) -> setting a "test" = None ->
    settings_init (m_files m) = Ok s -> usable_logs lg ->
    exists c al e l, get KContainer s = VContainer c /\ get KAlgorithm s = VAlgorithm al /\ get KEstimator s = VEstimator e /\ get KLevel s = VLevel l /\
    main (p :: ws) cwd lg m = (m, [Printed (
        txt "Currently active settings configuration:" ++ [10%N]
        ++ txt "-> default container:   " ++ txt (container_value c) ++ [10%N]
        ++ txt "-> default algorithm:   " ++ txt (algorithm_value al) ++ [10%N]
        ++ txt "-> default estimator:   " ++ txt (estimator_value e) ++ [10%N]
        ++ txt "-> default log level:   " ++ txt (level_name l) ++ [10%N]
        ++ txt "-> default verbosity:   " ++ str_of (get KVerbose s) ++ [10%N]
        ++ txt "-> default precision:   " ++ str_of (get KPrecision s))], Ok tt).
  Proof. exact (view_command int_of unicode_digit up low str_of number_text pytest listdir find_module user_instance algorithm_factory container_factory estimator_factory DATE depth DIR). Qed.
  (** plugin --install FILE, in any of its spellings, copies that file. *)
  Theorem C78_install_command : forall p ws a cwd lg m s f d n dir c, means ws (Some Plugin) a -> setting a "install" = Some (TextV f) -> setting a "uninstall" = None ->
    setting a "list" = None -> setting a "modules" = None -> setting a "test" = None ->
    settings_init (m_files m) = Ok s -> usable_logs lg -> tree_ok (m_tree m) -> plugin_dir (m_tree m) DIR d -> Forall plain cwd -> f <> [] -> ~ In 0%N f ->
    meant_place cwd f = n :: dir -> m_tree m (n :: dir) = Some (NFile c) -> dir <> d -> m_tree m (n :: d) <> Some NDir ->
    exists fs', differs_at (n :: d) (Some (NFile c)) (m_tree m) fs' /\
      main (p :: ws) cwd lg m = (mkMachine (m_files m) fs', [installing f; Printed (txt "[success] plugin was installed!")], Ok tt).
  Proof. exact (install_command int_of unicode_digit up low str_of number_text pytest listdir find_module user_instance algorithm_factory container_factory estimator_factory DATE depth DIR). Qed.
  (** Histories, as in C72 but without its assumption. *)
  Theorem C78_histories : forall h m s, working m s -> Forall (fun i => usable_logs (i_logs i) /\ no_tests parser i) h ->
    let run := fun i m => main (i_argv i) (i_cwd i) (i_logs i) m in
    (exists s', settings_init (m_files (machine_after run h m)) = Ok s') /\
    m_files (machine_after run h m) = runs up low (change_requests parser h) (m_files m) /\
    m_files (machine_after run h m) = m_files (machine_after run (filter (selects parser Change) h) m) /\
    m_tree (machine_after run h m) = m_tree (machine_after run (filter (selects parser Plugin) h) m).
  Proof.
    exact (fun h m s => history_spec up low str_of number_text parser pytest listdir find_module user_instance algorithm_factory container_factory estimator_factory DATE depth DIR
             h m s (parser_ok int_of unicode_digit)).
  Qed.
End C78.

Print Assumptions C78_accepted_lines.
Print Assumptions C78_understood_lines.
Print Assumptions C78_exit_codes.
Print Assumptions C78_exit_zero_only_if_asked.
Print Assumptions C78_rejected.
Print Assumptions C78_help.
Print Assumptions C78_subcommand_help.
Print Assumptions C78_one_meaning.
Print Assumptions C78_parser_ok.
Print Assumptions C78_change_command.
Print Assumptions C78_view_command.
Print Assumptions C78_install_command.
Print Assumptions C78_histories.

Definition int1 (t : text) : option Z :=
  match t with
  | [c] => if (48 <=? c)%N && (c <=? 57)%N then Some (Z.of_N (c - 48)) else None
  | [45%N; c] => if (48 <=? c)%N && (c <=? 57)%N then Some (- Z.of_N (c - 48)) else None
  | _ => None
  end%bool%Z.
Definition no_digit : N -> bool := fun _ => false.
Definition line (ws : list string) : list text := map txt ws.
Definition run3 (words : list string) (m : machine) : outcome :=
  mainPyZEAL (fun _ => []) (fun _ => []) (fun _ => []) (fun _ => []) (parse_args int1 no_digit) (fun _ m => m) (fun _ => Ok [txt "__init__.py"]) (fun _ => Err ModuleNotFoundError)
    (fun _ _ => true) fac2 fac2 fac2 (mkDate 2023 1 1 0 0 0) 3 DIR0 (line words) [txt "home"] logs2 m.
(** A change line with an abbreviated option, a joined value, a repeated option and a negative precision; letters that
    share a hyphen; rejected lines; help; and whole runs. *)
Example C78_nonvacuous :
  (exists a, means int1 no_digit (line ["change"; "--al"; "newton_grid"; "--precision"; "6"; "-7"; "--est=summation"; "--est"; "quadrature"]%string) (Some Change) a /\
     asked a KAlgorithm (VAlgorithm NEWTON_GRID) /\ asked a KEstimator (VEstimator QUADRATURE_ESTIMATOR) /\
     asked a KPrecision (VTuple [VJson (JInt 6); VJson (JInt (-7))]) /\ setting a "test" = None /\ (forall v, ~ asked a KVerbose v)) /\
  (exists a, means int1 no_digit (line ["plugin"; "-lm"]%string) (Some Plugin) a /\ setting a "list" = Some (BoolV true) /\ setting a "modules" = Some (BoolV true)) /\
  parse_args int1 no_digit (line ["change"; "--algorithm"; "newton"]%string) = Exits 2 /\
  parse_args int1 no_digit (line ["change"; "--precision"; "6"]%string) = Exits 2 /\
  parse_args int1 no_digit (line ["view"; "-p"; "-t"]%string) = Exits 2 /\
  parse_args int1 no_digit (line ["-t"; "plugin"; "-lh"; "x"]%string) = Exits 0 /\
  (let '(m, o, r) := run3 ["pyzeal"; "plugin"; "--in=my.py"]%string machine2 in
   r = Ok tt /\ m_tree m [txt "my.py"; txt "plugins"; txt "pz"] = Some (NFile (txt "mine")) /\ m_tree machine2 [txt "my.py"; txt "plugins"; txt "pz"] = None) /\
  (let '(m, o, r) := run3 ["pyzeal"; "change"; "--al"; "newton_grid"; "--precision"; "6"; "-7"]%string machine2 in
   r = Ok tt /\ exists s, settings_init (m_files m) = Ok s /\ get KAlgorithm s = VAlgorithm NEWTON_GRID).
Proof.
  split; [|split; [|split; [vm_compute; reflexivity|]; split; [vm_compute; reflexivity|]; split; [vm_compute; reflexivity|]; split; [vm_compute; reflexivity|]; split; [vm_compute; repeat split|]]].
  - eexists. split.
    + apply (m_sub int1 no_digit [] [] Change); [constructor|].
      eapply (ps_cons int1 no_digit (Sub Change) [txt "--al"; txt "newton_grid"]).
      { eapply p_word with (e := mkEntry "algorithm" None "algorithm" (AWord (Some ["newton_grid"; "simple_argument"; "simple_argument_newton"; "associated_polynomial"]%string))).
        - split; [cbn; tauto|]. right. exists (txt "al"), (txt "gorithm"). repeat split. discriminate.
        - reflexivity.
        - exists "newton_grid"%string. split; [cbn; tauto|reflexivity].
        - left. intros r H. discriminate. }
      eapply (ps_cons int1 no_digit (Sub Change) [txt "--precision"; txt "6"; txt "-7"]).
      { eapply p_ints with (e := mkEntry "precision" None "precision" TwoIntegers).
        - split; [cbn; tauto|]. right. exists (txt "precision"), []. repeat split. discriminate.
        - reflexivity.
        - left. intros r H. discriminate.
        - right. right. split; [left|].
          + exists (txt "7"), [], []. split; [constructor; [left; vm_compute; split; discriminate|constructor]|]. split; [constructor|]. split; [now left|]. left. split; [discriminate|reflexivity].
          + split; [|split].
            * intros e w r [_ [(c & _ & ->)|(p & q & _ & _ & ->)]]; discriminate.
            * intros e c r He Lc. cbn in He. repeat (destruct He as [<-|He]; [first [discriminate Lc|injection Lc as <-; discriminate]|]). destruct He.
            * intros r. discriminate.
        - vm_compute. reflexivity.
        - vm_compute. reflexivity. }
      eapply (ps_cons int1 no_digit (Sub Change) [txt "--est=summation"]).
      { apply (p_joined int1 no_digit (Sub Change) (mkEntry "estimator" None "estimator" (AWord (Some ["summation"; "quadrature"]%string))) (Some ["summation"; "quadrature"]%string) (txt "--est") (txt "summation")).
        - split; [cbn; tauto|]. right. exists (txt "est"), (txt "imator"). repeat split. discriminate.
        - reflexivity.
        - exists "summation"%string. split; [cbn; tauto|reflexivity]. }
      eapply (ps_cons int1 no_digit (Sub Change) [txt "--est"; txt "quadrature"]); [|constructor].
      eapply p_word with (e := mkEntry "estimator" None "estimator" (AWord (Some ["summation"; "quadrature"]%string))).
      * split; [cbn; tauto|]. right. exists (txt "est"), (txt "imator"). repeat split. discriminate.
      * reflexivity.
      * exists "quadrature"%string. split; [cbn; tauto|reflexivity].
      * left. intros r H. discriminate.
    + split; [exists "newton_grid"%string; split; reflexivity|]. split; [exists "quadrature"%string; split; reflexivity|]. split; [split; reflexivity|].
      split; [reflexivity|]. intros v H. exact H.
  - eexists. split.
    + apply (m_sub int1 no_digit [] [] Plugin); [constructor|].
      eapply (ps_cons int1 no_digit (Sub Plugin) [txt "-lm"]); [|constructor].
      apply (p_letters int1 no_digit (Sub Plugin) [mkEntry "list" (Some 108%N) "list" Nothing; mkEntry "modules" (Some 109%N) "modules" Nothing] (txt "lm")); [discriminate|].
      constructor; [|constructor; [|constructor]]; cbn; repeat split; tauto.
    + split; reflexivity.
  - destruct (run3 ["pyzeal"; "change"; "--al"; "newton_grid"; "--precision"; "6"; "-7"]%string machine2) as [[m o] r] eqn:E.
    vm_compute in E. injection E as <- <- <-. split; [reflexivity|]. eexists. split; [vm_compute; reflexivity|]. reflexivity.
Qed.
