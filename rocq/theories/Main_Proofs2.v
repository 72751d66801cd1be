(** * Proofs about the command line program: the parts of a run *)
From Verif Require Import PyBase Json_Model Json_Proofs Settings_Model Settings_Spec Settings_Proofs Locator_Model Locator_Spec Cli_Model Cli_Spec
  Factory_Spec Factory_Proofs Cli_Proofs2
  Loader_Model Loader_Spec Loader_Proofs Log_Model Log_Spec Log_Proofs Init_Model Init_Spec Init_Proofs Init_Proofs2 Install_Model Install_Spec Install_Proofs Main_Model Main_Spec Main_Proofs.
Open Scope list_scope.

Section Run.
  Variables up low : N -> text.
  Variable str_of : pyval -> text.
  Variable number_text : Z -> text.
  Variable argparse : list text -> parse.
  Variable pytest : text -> machine -> machine.
  Variable listdir : tree -> res (list text).
  Variable find_module : text -> res (@module stype obj files).
  Variable user_instance : nat -> stype -> bool.
  Variables algorithm_factory container_factory estimator_factory : factory stype obj files.
  Variable DATE : date.
  Variable depth : nat.
  Variable DIR : text.
  Notation main := (mainPyZEAL up low str_of number_text argparse pytest listdir find_module user_instance algorithm_factory container_factory
                      estimator_factory DATE (S (S depth)) DIR).
  Notation plugin_cmd := (handlePluginSubcommand low number_text listdir find_module user_instance DATE (S (S depth)) DIR).

  Lemma register_result ps : forall l l' : locator stype obj files, sealed l = sealed l' ->
    snd (register_plugins stype_eqb ps l) = snd (register_plugins stype_eqb ps l').
  Proof.
    induction ps as [|p ps IH]; intros l l' E; [reflexivity|]. cbn [register_plugins].
    destruct (getInstance p) as [i|]; [|reflexivity]. destruct (initialize p) as [f|]; [|reflexivity].
    unfold registerAsTransient. rewrite E. destruct (sealed l') eqn:S; [reflexivity|].
    match goal with |- context [register_plugins stype_eqb ps ?a] => match goal with |- context [_ = snd (let (_, _) := register_plugins stype_eqb ps ?b in _)] =>
      specialize (IH a b) end end. cbn [sealed] in IH. specialize (IH eq_refl).
    destruct (register_plugins stype_eqb ps _) as [a r]. destruct (register_plugins stype_eqb ps _) as [b r']. cbn [snd] in *. subst r. reflexivity.
  Qed.
  Lemma load_result log listing (l l' : locator stype obj files) : sealed l = sealed l' ->
    snd (loadPlugins stype_eqb find_module low log listing l) = snd (loadPlugins stype_eqb find_module low log listing l').
  Proof. intro E. unfold loadPlugins. destruct (locateAndLoadPlugins find_module low log listing); [apply register_result, E|reflexivity]. Qed.

  (** Initialization and resolution with working settings. *)
  Lemma start m s lg : settings_init (m_files m) = Ok s -> usable_logs lg -> exists st,
    initPyZEALServices user_instance algorithm_factory container_factory estimator_factory find_module low DATE (S (S depth))
       CLI (m_files m) (listdir (m_tree m)) (mkPyzeal empty_locator false false lg) = (st, Ok tt) /\ usable_logs (logs st) /\ sealed (loc st) = false /\
    singleton_of stype_eqb (loc st) TSettings = None /\ transient_of stype_eqb (loc st) TSettings = Some settings_factory /\
    (forall w s, settings_init w = Ok s ->
      snd (tryResolve stype_eqb (isinst user_instance) ONone (S (S depth)) (loc st) TController [] w) = Ok (OController OTesting (OSettings s)) /\
      snd (tryResolve stype_eqb (isinst user_instance) ONone (S (S depth)) (loc st) TParser [] w) = Ok OParser).
  Proof.
    intros E U. set (st0 := mkPyzeal empty_locator false false lg).
    assert (G : settings_available CLI (m_files m) (loc st0)). { right. split; [reflexivity|]. split; [reflexivity|]. exists s. exact E. }
    destruct (init_general user_instance algorithm_factory container_factory estimator_factory find_module low DATE (S depth) CLI (m_files m) (listdir (m_tree m)) st0
       ltac:(reflexivity) eq_refl eq_refl U G) as (l1 & lg1 & (X1 & X2 & X3) & U' & I).
    exists (mkPyzeal l1 true true lg1). split; [exact I|]. cbn [logs loc]. split; [exact U'|]. split; [rewrite X1; reflexivity|].
    split; [rewrite X3; reflexivity|]. split; [rewrite X2; reflexivity|]. intros w s' E'. split.
    - rewrite (resolve_controller user_instance) with (s := s'); [reflexivity| |rewrite X2; reflexivity|rewrite X2; reflexivity|rewrite X2; reflexivity|exact E'].
      intros t It. rewrite X3. destruct t; try reflexivity. destruct It as [?|[?|[?|[]]]]; discriminate.
    - cbn [tryResolve]. pose proof (X3 TParser) as P. unfold singleton_of in P. rewrite P. reflexivity.
  Qed.

  (** The hints and the tests around what a subcommand does. *)
  Definition around (argv : list text) (ns : namespace) (f : machine -> outcome) (m : machine) : outcome :=
    seq_ (when_ (Nat.ltb (List.length argv) 2) (say (txt "this is the CLI of the PyZEAL package. use '-h' for help.")) m) (fun m =>
    seq_ (f m) (fun m =>
    seq_ (handleTestingOption pytest (testing_part ns) m) (fun m =>
    when_ (Nat.eqb (List.length argv) 2 && negb (testing_part ns)) (say (txt "use '-h' with your subcommand for help.")) m))).
  Lemma seq_assoc r f g : seq_ (seq_ r f) g = seq_ r (fun m => seq_ (f m) g).
  Proof.
    destruct r as [[m o] [u|e]]; [|reflexivity]. cbn [seq_]. destruct (f m) as [[m' o'] [u'|e']]; [|reflexivity]. cbn [seq_].
    destruct (g m') as [[m'' o''] r'']. rewrite app_assoc. reflexivity.
  Qed.
  Lemma seq_done m f : seq_ (done_ m) f = f m.
  Proof. unfold seq_, done_. destruct (f m) as [[m' o'] r']. reflexivity. Qed.
  Lemma seq_ext r f g : (forall m, f m = g m) -> seq_ r f = seq_ r g.
  Proof. intro H. destruct r as [[m o] [u|e]]; [|reflexivity]. cbn [seq_]. rewrite H. reflexivity. Qed.

  Lemma parsed_run argv cwd lg m s ns : settings_init (m_files m) = Ok s -> usable_logs lg -> argparse (tl argv) = Parsed ns ->
    exists l1 lg1, sealed l1 = false /\ usable_logs lg1 /\ singleton_of stype_eqb l1 TSettings = None /\ transient_of stype_eqb l1 TSettings = Some settings_factory /\
      main argv cwd lg m = around argv ns (fun m => seq_ (handleViewSubcommand str_of s (settings_part ns) m) (fun m =>
        seq_ (handleChange up low s (settings_part ns) m) (plugin_cmd l1 lg1 cwd (plugin_part ns)))) m.
  Proof.
    intros E U P. destruct (start m s lg E U) as (st & I & U' & S & S1 & S2 & R). exists (loc st), (logs st).
    split; [exact S|]. split; [exact U'|]. split; [exact S1|]. split; [exact S2|]. destruct (R _ _ E) as [R1 R2].
    unfold mainPyZEAL. rewrite I, R2, P. unfold around.
    assert (EQ : forall b, seq_ (when_ b (say (txt "this is the CLI of the PyZEAL package. use '-h' for help.")) m) = 
        fun f => let '(m', o', r') := f m in (m', (if b then [Printed (txt "this is the CLI of the PyZEAL package. use '-h' for help.")] else []) ++ o', r')).
    { intros [|]; reflexivity. }
    rewrite EQ. cbn beta. rewrite R1. rewrite !seq_assoc. 
    rewrite (seq_ext _ _ (fun m0 => seq_ (seq_ (handleChange up low s (settings_part ns) m0) (plugin_cmd (loc st) (logs st) cwd (plugin_part ns))) (fun m1 =>
       seq_ (handleTestingOption pytest (testing_part ns) m1) (fun m2 =>
       when_ (Nat.eqb (List.length argv) 2 && negb (testing_part ns)) (say (txt "use '-h' with your subcommand for help.")) m2)))); [reflexivity|].
    intro m0. rewrite seq_assoc. reflexivity.
  Qed.
  Lemma exit_run argv cwd lg m s c : settings_init (m_files m) = Ok s -> usable_logs lg -> argparse (tl argv) = Exits c ->
    main argv cwd lg m = (m, [], Err (SystemExit c)).
  Proof.
    intros E U P. destruct (start m s lg E U) as (st & I & U' & S & S1 & S2 & R). destruct (R _ _ E) as [R1 R2].
    unfold mainPyZEAL. rewrite I, R2, P. reflexivity.
  Qed.
  Lemma unreadable_run argv cwd lg m e : settings_init (m_files m) = Err e -> main argv cwd lg m = (m, [], Err e).
  Proof.
    intro E. unfold mainPyZEAL.
    destruct (init_bad_settings user_instance algorithm_factory container_factory estimator_factory find_module low DATE (S depth) CLI (m_files m)
       (listdir (m_tree m)) (mkPyzeal empty_locator false false lg) e ltac:(reflexivity) eq_refl eq_refl eq_refl E) as (l1 & -> & _). reflexivity.
  Qed.
End Run.
