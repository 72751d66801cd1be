(** * Proofs about the command line program: subcommands *)
From Verif Require Import PyBase Json_Model Json_Proofs Settings_Model Settings_Spec Settings_Proofs Locator_Model Locator_Spec Cli_Model Cli_Spec
  Factory_Spec Factory_Proofs Cli_Proofs2
  Loader_Model Loader_Spec Loader_Proofs Log_Model Log_Spec Log_Proofs Init_Model Init_Spec Init_Proofs Init_Proofs2 Install_Model Install_Spec Install_Proofs
  Main_Model Main_Spec Main_Proofs Main_Proofs2.
Open Scope list_scope.

Definition absent (ns : namespace) (c : subcommand) : Prop := forall n, In n (options c) -> dget String.eqb n ns = None.
Lemma other_absent sub ns c : of_subcommand sub ns -> sub <> Some c -> absent ns c.
Proof.
  intros H N n Hn. destruct (dget String.eqb n ns) as [v|] eqn:E; [|reflexivity]. exfalso. destruct (H n v E) as [->|(c' & S & I)].
  - destruct c; cbn in Hn; intuition discriminate.
  - assert (c' <> c) by (intros ->; contradiction). destruct c, c'; try contradiction; cbn in Hn, I;
      repeat (destruct Hn as [Hn|Hn]; [subst n; repeat (destruct I as [I|I]; [discriminate I|]); destruct I|]); destruct Hn.
Qed.
Definition silent (ns : namespace) (c : subcommand) : Prop := forall n, In n (options c) -> off ns n.
Lemma absent_silent ns c : absent ns c -> silent ns c.
Proof. intros H n Hn. unfold off. rewrite (H n Hn). exact I. Qed.
Lemma off_false ns n : off ns n -> is_true (getattr ns n (BoolV false)) = false.
Proof.
  unfold off, getattr. destruct (dget String.eqb n ns) as [[|[|]|[|c t]|[|z l]]|]; cbn; intro H; try reflexivity; destruct H.
Qed.
Lemma off_text ns n : off ns n -> match as_text (getattr ns n (TextV [])) with Some (_ :: _) => False | _ => True end.
Proof.
  unfold off, getattr. destruct (dget String.eqb n ns) as [[|[|]|[|c t]|[|z l]]|]; cbn; intro H; try exact I; destruct H.
Qed.
Lemma off_precision ns n : off ns n -> match getattr ns n NoneV with
     | IntsV (x :: l) => Some (VTuple (map (fun z => VJson (JInt z)) (x :: l))) | _ => None end = None.
Proof.
  unfold off, getattr. destruct (dget String.eqb n ns) as [[|[|]|[|c t]|[|z l]]|]; cbn; intro H; try reflexivity; destruct H.
Qed.
Lemma if_text_off f o st : match o with Some (_ :: _) => False | _ => True end -> if_text o f st = (st, Ok tt).
Proof. destruct o as [[|c t]|]; intro H; try reflexivity. destruct H. Qed.
Lemma given_off f o m : match o with Some (_ :: _) => False | _ => True end -> given_ o f m = done_ m.
Proof. destruct o as [[|c t]|]; intro H; try reflexivity. destruct H. Qed.
Lemma machine_eta m : mkMachine (m_files m) (m_tree m) = m. Proof. destruct m. reflexivity. Qed.

Section Run.
  Variables up low : N -> text.
  Variable str_of : pyval -> text.
  Variable number_text : Z -> text.
  Variable argparse : list text -> parse.
  Variable pytest : text -> machine -> machine.
  Variable listdir : tree -> res (list text).
  Variable find_module : text -> res (@module stype obj files).
  Variable user_instance : nat -> stype -> bool.
  Variables algorithm_factory container_factory estimator_factory : factory stype obj files.
  Variable DATE : date.
  Variable depth : nat.
  Variable DIR : text.
  Notation main := (mainPyZEAL up low str_of number_text argparse pytest listdir find_module user_instance algorithm_factory container_factory
                      estimator_factory DATE (S (S depth)) DIR).
  Notation plugin_cmd := (handlePluginSubcommand low number_text listdir find_module user_instance DATE (S (S depth)) DIR).

  Lemma view_idle s ns m : silent ns View -> handleViewSubcommand str_of s (settings_part ns) m = done_ m.
  Proof. intro H. unfold handleViewSubcommand, settings_part. cbn [a_print]. rewrite off_false by (apply H; left; reflexivity). reflexivity. Qed.
  Lemma change_idle s ns m : silent ns Change -> handleChange up low s (settings_part ns) m = done_ m.
  Proof.
    intro H. unfold handleChange, handleChangeSubcommand, settings_part. cbn [a_container a_algorithm a_estimator a_level a_verbose a_precision].
    rewrite (if_text_off _ (as_text (getattr ns "container" (TextV [])))) by (apply off_text, H; cbn [options In]; auto 10). unfold andthen at 1. cbn [fst snd].
    rewrite (if_text_off _ (as_text (getattr ns "algorithm" (TextV [])))) by (apply off_text, H; cbn [options In]; auto 10). unfold andthen at 1. cbn [fst snd].
    rewrite (if_text_off _ (as_text (getattr ns "estimator" (TextV [])))) by (apply off_text, H; cbn [options In]; auto 10). unfold andthen at 1. cbn [fst snd].
    rewrite (if_text_off _ (as_text (getattr ns "log_level" (TextV [])))) by (apply off_text, H; cbn [options In]; auto 10). unfold andthen at 1. cbn [fst snd].
    rewrite (if_text_off _ (as_text (getattr ns "verbose" (TextV [])))) by (apply off_text, H; cbn [options In]; auto 10). unfold andthen at 1. cbn [fst snd].
    rewrite off_precision by (apply H; cbn [options In]; auto 10). cbn [c_files c_out map]. rewrite machine_eta. reflexivity.
  Qed.
  Lemma plugin_idle l lg cwd ns m : silent ns Plugin -> plugin_cmd l lg cwd (plugin_part ns) m = done_ m.
  Proof.
    intro H. unfold handlePluginSubcommand, plugin_part. cbn [p_list p_modules p_install p_uninstall].
    rewrite (off_false ns "list") by (apply H; cbn [options In]; auto 10). rewrite (off_false ns "modules") by (apply H; cbn [options In]; auto 10). cbn [when_]. rewrite !seq_done.
    rewrite given_off by (apply off_text, H; cbn [options In]; auto 10). rewrite seq_done. apply given_off. apply off_text, H. cbn [options In]. auto 10.
  Qed.

  (** Listing the plugins does not depend on the locator and logging of the process. *)
  Definition list_plugins (m : machine) : outcome :=
    (m, [Printed (txt "currently installed Plugins:"); Printed (txt "----------------------------")] ++
        match snd (loadPlugins stype_eqb find_module low (Ok tt) (listdir (m_tree m)) (@empty_locator stype obj files)) with
        | Err _ => [] | Ok is_ => map (fun i => Printed (plugin_str number_text i)) is_ end,
     bind (snd (loadPlugins stype_eqb find_module low (Ok tt) (listdir (m_tree m)) (@empty_locator stype obj files))) (fun _ => Ok tt)).
  Definition plugins (cwd : place) (args : plugin_args) (m : machine) : outcome :=
    seq_ (when_ (p_list args) list_plugins m) (fun m =>
    seq_ (when_ (p_modules args) (listModules listdir) m) (fun m =>
    seq_ (given_ (p_install args) (install DIR cwd) m) (fun m =>
    given_ (p_uninstall args) (uninstall DIR cwd) m))).
  Lemma list_any l lg m s : sealed l = false -> usable_logs lg -> singleton_of stype_eqb l TSettings = None ->
    transient_of stype_eqb l TSettings = Some settings_factory -> settings_init (m_files m) = Ok s ->
    listPlugins low number_text listdir find_module user_instance DATE (S (S depth)) l lg m = list_plugins m.
  Proof.
    intros SE U S1 S2 E. unfold listPlugins, list_plugins. cbn [say seq_].
    assert (W : snd (with_logger user_instance DATE (S (S depth)) (txt "plugin_loader") (m_files m) l lg) = Ok tt).
    { unfold with_logger, settings_level. rewrite (resolve_settings user_instance (S depth) l (m_files m) s [] S1 S2 E). cbn [snd bind].
      destruct (init_level _ _ E) as (lv & ->). destruct (initLogger_ok DATE (txt "plugin_loader") lv lg U) as (st' & -> & _). reflexivity. }
    destruct (with_logger _ _ _ _ _ _ _) as [lg' r]. cbn [snd] in W. subst r.
    rewrite (load_result low find_module (Ok tt) (listdir (m_tree m)) l (@empty_locator stype obj files)) by (rewrite SE; reflexivity).
    destruct (snd (loadPlugins _ _ _ _ _ _)) as [is_|e]; cbn [bind]; reflexivity.
  Qed.
  Lemma plugin_any l lg cwd args m s : sealed l = false -> usable_logs lg -> singleton_of stype_eqb l TSettings = None ->
    transient_of stype_eqb l TSettings = Some settings_factory -> settings_init (m_files m) = Ok s ->
    plugin_cmd l lg cwd args m = plugins cwd args m.
  Proof.
    intros S U S1 S2 E. unfold handlePluginSubcommand, plugins. destruct (p_list args); [|reflexivity]. cbn [when_].
    rewrite (list_any l lg m s S U S1 S2 E). reflexivity.
  Qed.

  Definition subcommand_effect (s : service) (cwd : place) (ns : namespace) (sub : option subcommand) : machine -> outcome :=
    match sub with
    | None => done_
    | Some View => handleViewSubcommand str_of s (settings_part ns)
    | Some Change => handleChange up low s (settings_part ns)
    | Some Plugin => plugins cwd (plugin_part ns)
    end.
  Theorem run_by_subcommand argv cwd lg m s ns sub : settings_init (m_files m) = Ok s -> usable_logs lg -> argparse (tl argv) = Parsed ns ->
    of_subcommand sub ns -> main argv cwd lg m = around pytest argv ns (subcommand_effect s cwd ns sub) m.
  Proof.
    intros E U P O.
    destruct (parsed_run up low str_of number_text argparse pytest listdir find_module user_instance algorithm_factory container_factory
                      estimator_factory DATE depth DIR argv cwd lg m s ns E U P) as (l1 & lg1 & S & U' & S1 & S2 & ->).
    assert (A : forall c, sub <> Some c -> silent ns c) by (intros c N; apply absent_silent, (other_absent sub); assumption).
    assert (EQ : seq_ (handleViewSubcommand str_of s (settings_part ns) m) (fun m0 =>
        seq_ (handleChange up low s (settings_part ns) m0) (plugin_cmd l1 lg1 cwd (plugin_part ns))) = subcommand_effect s cwd ns sub m).
    { destruct sub as [[| |]|]; cbn [subcommand_effect].
      - assert (C : forall m0, seq_ (handleChange up low s (settings_part ns) m0) (plugin_cmd l1 lg1 cwd (plugin_part ns)) = done_ m0).
        { intro m0. rewrite change_idle by (apply A; discriminate). rewrite seq_done. apply plugin_idle. apply A. discriminate. }
        rewrite (seq_ext _ _ _ C). destruct (handleViewSubcommand str_of s (settings_part ns) m) as [[m' o'] [[]|e]]; cbn [seq_ done_]; rewrite ?app_nil_r; reflexivity.
      - rewrite view_idle by (apply A; discriminate). rewrite seq_done.
        rewrite (seq_ext _ _ done_) by (intro m0; apply plugin_idle; apply A; discriminate).
        destruct (handleChange up low s (settings_part ns) m) as [[m' o'] [[]|e]]; cbn [seq_ done_]; rewrite ?app_nil_r; reflexivity.
      - rewrite view_idle by (apply A; discriminate). rewrite seq_done. rewrite change_idle by (apply A; discriminate). rewrite seq_done.
        apply (plugin_any l1 lg1 cwd _ m s); assumption.
      - rewrite view_idle by (apply A; discriminate). rewrite seq_done. rewrite change_idle by (apply A; discriminate). rewrite seq_done.
        apply plugin_idle. apply A. discriminate. }
    unfold around. destruct (Nat.ltb (List.length argv) 2); cbn [when_ say done_ seq_]; rewrite EQ; reflexivity.
  Qed.
End Run.
