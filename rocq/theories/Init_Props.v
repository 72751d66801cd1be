(** * Property C61: initialization *)
From Verif Require Import PyBase Json_Model Settings_Model Settings_Proofs3 Cli_Model Cli_Spec Locator_Model Locator_Spec Loader_Model Loader_Spec
  Install_Model Install_Spec Install_Proofs Log_Model Log_Spec Init_Model Init_Spec Init_Proofs Init_Proofs2.
Open Scope list_scope.

Section C61.
  Variable user_instance : nat -> stype -> bool.
  Variables algorithm_factory container_factory estimator_factory : factory stype obj files.
  Variable find_module : text -> res (@module stype obj files).
  Variable low : N -> text.
  Variable DATE : date.
  Variable depth : nat.
  Notation init := (initPyZEALServices user_instance algorithm_factory container_factory estimator_factory find_module low DATE (S depth)).
  Notation extends := (extends algorithm_factory container_factory estimator_factory).
  Notation isinst := (isinst user_instance).

  (** The first initialization in any mode: exactly the services of the mode are registered, other registrations
      stay; then the plugins are loaded unless the mode is CLI (or empty).  It is complete iff that works. *)
  Theorem C61_first_initialization : forall mode w listing st, (mode < 8)%N -> initialized st = false -> sealed (loc st) = false ->
    usable_logs (logs st) -> settings_available mode w (loc st) ->
    exists l1 lg, extends mode (loc st) l1 /\ usable_logs lg /\
      init mode w listing st =
      if loads_plugins mode
      then match loadPlugins stype_eqb find_module low (Ok tt) listing l1 with
           | (l2, Ok _) => (mkPyzeal l2 true true lg, Ok tt)
           | (l2, Err e) => (mkPyzeal l2 false true lg, Err e)
           end
      else (mkPyzeal l1 true true lg, Ok tt).
  Proof. exact (init_general user_instance algorithm_factory container_factory estimator_factory find_module low DATE depth). Qed.
  (** Whatever calls follow a successful one, in whatever modes: nothing changes. *)
  Theorem C61_idempotent : forall h1 h2 st,
    let calls := init_calls user_instance algorithm_factory container_factory estimator_factory find_module low DATE (S depth) in
    initialized (calls h1 st) = true -> calls (h1 ++ h2) st = calls h1 st.
  Proof. exact (calls_stable user_instance algorithm_factory container_factory estimator_factory find_module low DATE depth). Qed.
  (** It counts as done iff it did not raise; and it neither seals nor unseals. *)
  Theorem C61_done_iff_no_error : forall mode w listing st st' r, init mode w listing st = (st', r) ->
    initialized st' = (initialized st || is_ok r)%bool /\ sealed (loc st') = sealed (loc st).
  Proof. exact (init_flag user_instance algorithm_factory container_factory estimator_factory find_module low DATE (S depth)). Qed.
  (** On a sealed locator it raises and changes nothing. *)
  Theorem C61_sealed : forall mode w listing st, (mode < 4)%N -> initialized st = false -> sealed (loc st) = true -> init mode w listing st = (st, Err ValueError).
  Proof. exact (init_sealed user_instance algorithm_factory container_factory estimator_factory find_module low DATE depth). Qed.
  (** GUI modes register no settings: without any from elsewhere they raise. *)
  Theorem C61_gui_refuted : forall mode w listing st, (4 <= mode < 8)%N -> initialized st = false ->
    singleton_of stype_eqb (loc st) TSettings = None -> transient_of stype_eqb (loc st) TSettings = None ->
    init mode w listing st = (st, Err InvalidServiceConfiguration).
  Proof. exact (init_no_settings user_instance algorithm_factory container_factory estimator_factory find_module low DATE depth). Qed.
  (** Unreadable settings make it raise, with only the settings factory registered. *)
  Theorem C61_unreadable_settings : forall mode w listing st e, (mode < 4)%N -> initialized st = false -> sealed (loc st) = false ->
    singleton_of stype_eqb (loc st) TSettings = None -> settings_init w = Err e ->
    exists l1, init mode w listing st = (mkPyzeal l1 false (own_logger st) (logs st), Err e) /\
      singletons l1 = singletons (loc st) /\ sealed l1 = false /\
      forall t, transient_of stype_eqb l1 t = match t with TSettings => Some settings_factory | _ => transient_of stype_eqb (loc st) t end.
  Proof. exact (init_bad_settings user_instance algorithm_factory container_factory estimator_factory find_module low DATE depth). Qed.
  (** After it, resolving the settings reads the files as they are at that moment ... *)
  Theorem C61_settings_are_current : forall (l : locator stype obj files) w s kw,
    singleton_of stype_eqb l TSettings = None -> transient_of stype_eqb l TSettings = Some settings_factory ->
    settings_init w = Ok s -> tryResolve stype_eqb isinst ONone (S depth) l TSettings kw w = (w, Ok (OSettings s)).
  Proof. exact (resolve_settings user_instance depth). Qed.
  (** ... and after CLI initialization of a locator without own objects for these types the command line
      controller is resolved with them. *)
  Theorem C61_cli_controller : forall w listing st s, initialized st = false -> sealed (loc st) = false -> usable_logs (logs st) ->
    (forall t, In t [TController; TTesting; TSettings] -> singleton_of stype_eqb (loc st) t = None) -> settings_init w = Ok s ->
    exists st', init CLI w listing st = (st', Ok tt) /\ forall w' s', settings_init w' = Ok s' ->
      tryResolve stype_eqb isinst ONone (S (S depth)) (loc st') TController [] w' = (w', Ok (OController OTesting (OSettings s'))) /\
      tryResolve stype_eqb isinst ONone (S (S depth)) (loc st') TParser [] w' = (w', Ok OParser).
  Proof.
    intros w listing st s I S U H E.
    assert (G : settings_available CLI w (loc st)). { right. split; [apply H; cbn; tauto|]. split; [reflexivity|]. exists s. exact E. }
    destruct (cli_ok user_instance algorithm_factory container_factory estimator_factory find_module low DATE depth w listing st I S U G) as (l1 & lg & E1 & X1 & X2 & X3).
    eexists. split; [exact E1|]. cbn [loc]. intros w' s' E'. split.
    - apply resolve_controller; [|rewrite X2; reflexivity|rewrite X2; reflexivity|rewrite X2; reflexivity|exact E'].
      intros t It. rewrite X3. rewrite <- (H t It). destruct t; try reflexivity. destruct It as [?|[?|[?|[]]]]; discriminate.
    - cbn [tryResolve]. pose proof (X3 TParser) as P. unfold singleton_of in P. rewrite P. reflexivity.
  Qed.
  (** Without a package pyzeal_plugins: installing one plugin file makes every later SCRIPT initialization (which
      importing a root finder performs) raise; CLI initialization still works, and after uninstalling the
      plugin the SCRIPT initialization can be repeated. *)
  Theorem C61_installed_plugin_breaks_scripts : forall fs DIR d cwd p q c ns1 ns2 w st stem,
    find_module (txt "pyzeal_plugins") = Err ModuleNotFoundError ->
    tree_ok fs -> plugin_dir fs DIR d -> leads_to fs cwd p q c -> fs (basename p :: d) = None ->
    ~ private (basename p) -> python_file (basename p) stem -> (forall n, fs (n :: d) <> None -> private n \/ forall stem, ~ python_file n stem) ->
    initialized st = false -> sealed (loc st) = false -> usable_logs (logs st) -> settings_available SCRIPT w (loc st) ->
    exists fs1 fs2, installPlugin DIR cwd p fs = (fs1, Ok true) /\ uninstallPlugin DIR cwd (basename p) fs1 = (fs2, Ok true) /\
      (lists fs1 d ns1 -> Forall ascii ns1 -> exists st1 e, init SCRIPT w (Ok ns1) st = (st1, Err e) /\ (e = ModuleNotFoundError \/ e = ImportError) /\
         (lists fs2 d ns2 -> Forall ascii ns2 -> exists st2, init SCRIPT w (Ok ns2) st1 = (st2, Ok tt) /\ initialized st2 = true)).
  Proof. exact (installed_plugin_breaks user_instance algorithm_factory container_factory estimator_factory find_module low DATE depth). Qed.
  Theorem C61_cli_works_with_any_plugins : forall w listing st, initialized st = false -> sealed (loc st) = false -> usable_logs (logs st) ->
    settings_available CLI w (loc st) ->
    exists l1 lg, init CLI w listing st = (mkPyzeal l1 true true lg, Ok tt) /\ extends CLI (loc st) l1.
  Proof. exact (cli_ok user_instance algorithm_factory container_factory estimator_factory find_module low DATE depth). Qed.
End C61.
Print Assumptions C61_first_initialization.
Print Assumptions C61_idempotent.
Print Assumptions C61_done_iff_no_error.
Print Assumptions C61_sealed.
Print Assumptions C61_gui_refuted.
Print Assumptions C61_unreadable_settings.
Print Assumptions C61_settings_are_current.
Print Assumptions C61_cli_controller.
Print Assumptions C61_installed_plugin_breaks_scripts.
Print Assumptions C61_cli_works_with_any_plugins.

Definition fac1 : factory stype obj files := mkFactory [] (fun _ w => (w, Ok (OUser 1))).
Definition state1 : pyzeal := mkPyzeal empty_locator false false (mkLogging 0 (fun _ => Missing) [] (mkLogger 30 []) [] []).
Definition tree1 : tree := fun q => match q with
  | [] => Some NDir
  | [a] => if text_eqb a (txt "pz") then Some NDir else if text_eqb a (txt "my.py") then Some (NFile (txt "mine")) else None
  | [a; b] => if text_eqb b (txt "pz") then if text_eqb a (txt "__init__.py") then Some (NFile []) else None else None
  | _ => None end.
Definition boot (mode : N) (listing : list text) := initPyZEALServices (fun _ _ => true) fac1 fac1 fac1 (fun _ => Err ModuleNotFoundError) (fun _ => []) (mkDate 2023 1 1 0 0 0) 3 mode fs0 (Ok listing) state1.
Example C61_nonvacuous :
  usable_logs (logs state1) /\ settings_available SCRIPT fs0 (loc state1) /\
  (snd (boot SCRIPT [txt "__init__.py"]) = Ok tt /\ map fst (transients (loc (fst (boot SCRIPT [txt "__init__.py"])))) = [TSettings; TAlgorithm; TContainer; TEstimator]) /\
  (snd (boot CLI [txt "my.py"]) = Ok tt /\ map fst (transients (loc (fst (boot CLI [txt "my.py"])))) = [TSettings; TController; TTesting]) /\
  snd (boot SCRIPT [txt "my.py"]) = Err ModuleNotFoundError /\
  map fst (transients (loc (fst (boot (N.lor CLI SCRIPT) [])))) = [TSettings] /\
  tree_ok tree1 /\ plugin_dir tree1 (txt "/pz") [txt "pz"] /\ leads_to tree1 [txt "pz"] (txt "../my.py") [txt "my.py"] (txt "mine") /\
  tree1 [basename (txt "../my.py"); txt "pz"] = None /\ python_file (txt "my.py") (txt "my") /\ lists tree1 [txt "pz"] [txt "__init__.py"].
Proof.
  split; [intros d; discriminate|]. split; [right; split; [reflexivity|]; split; [reflexivity|]; exists service0; exact fs0_init|].
  split; [split; vm_compute; reflexivity|]. split; [split; vm_compute; reflexivity|]. split; [vm_compute; reflexivity|]. split; [vm_compute; reflexivity|].
  split; [|split; [|split; [|split; [|split]]]].
  - split; [reflexivity|].
    assert (K : forall n q, tree1 (n :: q) <> None -> (q = [] /\ (n = txt "pz" \/ n = txt "my.py")) \/ (q = [txt "pz"] /\ n = txt "__init__.py")).
    { intros n [|b [|x y]] H; cbn [tree1] in H.
      - left. split; [reflexivity|]. destruct (text_eqb n (txt "pz")) eqn:E; [left; apply Json_Proofs.text_eqb_eq; exact E|].
        destruct (text_eqb n (txt "my.py")) eqn:E2; [right; apply Json_Proofs.text_eqb_eq; exact E2|congruence].
      - right. destruct (text_eqb b (txt "pz")) eqn:E; [|congruence]. destruct (text_eqb n (txt "__init__.py")) eqn:E2; [|congruence].
        apply Json_Proofs.text_eqb_eq in E, E2. subst. split; reflexivity.
      - congruence. }
    split; intros n q H; destruct (K n q H) as [(-> & [-> | ->])|(-> & ->)]; try reflexivity; repeat split; discriminate.
  - split; [reflexivity|]. split; [reflexivity|]. split; [|reflexivity]. intro cwd. reflexivity.
  - split; reflexivity.
  - reflexivity.
  - split; [|exists 109%N; split; [left; reflexivity|discriminate]]. exists (txt "py"). split; [reflexivity|]. repeat constructor; unfold same_letter; cbn; lia.
  - intro n. cbn [tree1 In]. change (text_eqb (txt "pz") (txt "pz")) with true. cbv iota. split.
    + intros [<- |[]]. discriminate.
    + destruct (text_eqb n (txt "__init__.py")) eqn:E; [|congruence]. intros _. left. symmetry. apply Json_Proofs.text_eqb_eq. exact E.
Qed.
