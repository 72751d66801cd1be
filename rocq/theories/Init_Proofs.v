(** * Proofs about the initialization (C61) *)
From Verif Require Import PyBase Json_Model Settings_Model Settings_Proofs Factory_Model Factory_Spec Factory_Proofs Locator_Model Locator_Spec Loader_Model Log_Model Log_Spec Log_Proofs Init_Model Init_Spec.
Open Scope list_scope.

Lemma stype_eqb_eq a b : stype_eqb a b = true <-> a = b.
Proof.
  destruct a, b; cbn; split; intro H; try discriminate H; try reflexivity.
  - apply Nat.eqb_eq in H. congruence.
  - injection H as ->. apply Nat.eqb_refl.
Qed.
Lemma dget_dset_if {V} (t t' : stype) (v : V) d : dget stype_eqb t (dset stype_eqb t' v d) = if stype_eqb t t' then Some v else dget stype_eqb t d.
Proof.
  destruct (stype_eqb t t') eqn:E.
  - apply stype_eqb_eq in E. subst t'. apply (dget_dset_same stype_eqb stype_eqb_eq).
  - apply (dget_dset_other stype_eqb stype_eqb_eq). intros ->. rewrite (proj2 (stype_eqb_eq t t) eq_refl) in E. discriminate E.
Qed.

Section Init.
  Variable user_instance : nat -> stype -> bool.
  Variables algorithm_factory container_factory estimator_factory : factory stype obj files.
  Variable find_module : text -> res (@module stype obj files).
  Variable low : N -> text.
  Variable DATE : date.
  Variable depth : nat.
  Notation init := (initPyZEALServices user_instance algorithm_factory container_factory estimator_factory find_module low DATE (S depth)).
  Notation extends := (extends algorithm_factory container_factory estimator_factory).
  Notation locator := (locator stype obj files).
  Notation isinst := (isinst user_instance).

  Lemma level_singleton w (l : locator) s lv : singleton_of stype_eqb l TSettings = Some (OSettings s) -> get KLevel s = VLevel lv ->
    settings_level user_instance (S depth) w l = Ok lv.
  Proof. intros H G. unfold settings_level. cbn [tryResolve]. unfold singleton_of in H. rewrite H. cbn [Init_Model.isinst snd bind]. rewrite G. reflexivity. Qed.
  Lemma level_transient w (l : locator) s : singleton_of stype_eqb l TSettings = None -> transient_of stype_eqb l TSettings = Some settings_factory ->
    settings_init w = Ok s -> exists lv, get KLevel s = VLevel lv /\ settings_level user_instance (S depth) w l = Ok lv.
  Proof.
    intros H T I. destruct (init_level w s I) as [lv L]. exists lv. split; [exact L|].
    unfold settings_level. cbn [tryResolve]. unfold singleton_of, transient_of in *. rewrite H. cbn [Init_Model.isinst]. rewrite T.
    cbn [settings_factory f_params f_call bind_arguments p_name p_default dget bind]. rewrite I. cbn [bind Init_Model.isinst snd]. rewrite L. reflexivity.
  Qed.
  Lemma available_level mode w l l1 : settings_available mode w l ->
    singleton_of stype_eqb l1 TSettings = singleton_of stype_eqb l TSettings -> ((mode < 4)%N -> transient_of stype_eqb l1 TSettings = Some settings_factory) ->
    exists lv, settings_level user_instance (S depth) w l1 = Ok lv.
  Proof.
    intros [(s & lv & A & B)|(A & M & s & B)] S T.
    - exists lv. apply (level_singleton w l1 s); [congruence|exact B].
    - destruct (level_transient w l1 s) as (lv & _ & L); [congruence|exact (T M)|exact B|]. exists lv. exact L.
  Qed.

  Lemma logger_ready name w l lg lv : usable_logs lg -> settings_level user_instance (S depth) w l = Ok lv ->
    exists lg', with_logger user_instance DATE (S depth) name w l lg = (lg', Ok tt) /\ usable_logs lg'.
  Proof.
    intros U L. unfold with_logger. rewrite L. destruct (initLogger_ok DATE name lv lg U) as (lg' & E & _ & _ & D & _). exists lg'. split; [exact E|exact D].
  Qed.

  Lemma mode_cases m : (m < 8)%N -> m = 0%N \/ m = 1%N \/ m = 2%N \/ m = 3%N \/ m = 4%N \/ m = 5%N \/ m = 6%N \/ m = 7%N.
  Proof. lia. Qed.

  Ltac flags := repeat match goal with |- context [flag_in ?a ?b] => let v := eval vm_compute in (flag_in a b) in change (flag_in a b) with v end.
  Ltac with_log U A := match goal with |- context [with_logger _ _ _ ?n ?w ?l ?g] =>
    let lv := fresh "lv" in let L := fresh "L" in let lg := fresh "lg" in let E := fresh "E" in let U' := fresh "U" in
    destruct (available_level _ w _ l A) as [lv L];
      [unfold singleton_of; cbn [singletons]; rewrite ?dget_dset_if; reflexivity
      |intro; unfold transient_of; cbn [transients]; rewrite ?dget_dset_if; first [reflexivity|exfalso; lia]|];
    destruct (logger_ready n w l g lv U L) as (lg & E & U') end.
  Ltac ready := match goal with E : with_logger _ _ _ _ _ _ _ = _ |- _ => rewrite E; clear E end.
  (** The general result. *)
  Lemma init_general mode w listing st : (mode < 8)%N -> initialized st = false -> sealed (loc st) = false -> usable_logs (logs st) ->
    settings_available mode w (loc st) ->
    exists l1 lg, extends mode (loc st) l1 /\ usable_logs lg /\
      init mode w listing st =
      if loads_plugins mode
      then match loadPlugins stype_eqb find_module low (Ok tt) listing l1 with
           | (l2, Ok _) => (mkPyzeal l2 true true lg, Ok tt)
           | (l2, Err e) => (mkPyzeal l2 false true lg, Err e)
           end
      else (mkPyzeal l1 true true lg, Ok tt).
  Proof.
    intros M N S U A. destruct st as [[tr si se] ini own lg]. cbn [loc initialized logs sealed] in *. subst ini se.
    unfold initPyZEALServices. cbn [initialized].
    destruct (mode_cases mode M) as [-> |[-> |[-> |[-> |[-> |[-> |[-> | ->]]]]]]]; flags;
      cbn [if_ on_loc register fold_left registerAsTransient registerAsSingleton sealed then_ loc initialized own_logger logs fst snd transients singletons Init_Model.isinst negb loads_plugins N.eqb orb];
      with_log U A; ready;
      cbn [if_ on_loc register fold_left registerAsTransient registerAsSingleton sealed then_ loc initialized own_logger logs fst snd transients singletons Init_Model.isinst negb loads_plugins N.eqb orb is_ok];
      rewrite ?orb_true_r;
      try (match goal with H : usable_logs ?g |- context [with_logger _ _ _ (txt "plugin_loader") _ _ ?g] => with_log H A; ready end;
           cbn [if_ on_loc register fold_left registerAsTransient registerAsSingleton sealed then_ loc initialized own_logger logs fst snd transients singletons Init_Model.isinst negb loads_plugins N.eqb orb is_ok]);
      idtac.
    all: match goal with
         | |- context [let (_, _) := loadPlugins _ _ _ _ _ ?l in _] => exists l; eexists; split; [|split; [eassumption|]]; [|destruct (loadPlugins stype_eqb find_module low (Ok tt) listing l) as [l2 [x|e]]; reflexivity]
         | _ => eexists _, _; split; [|split; [eassumption|reflexivity]] end.
    all: split; [reflexivity|]; split; [intro t; unfold transient_of; cbn [transients]; rewrite ?dget_dset_if; destruct t; reflexivity|].
    all: intro t; unfold singleton_of; cbn [singletons]; rewrite ?dget_dset_if; destruct t; reflexivity.
  Qed.

  (** The other cases. *)
  Lemma init_again mode w listing st : initialized st = true -> init mode w listing st = (st, Ok tt).
  Proof. intro I. unfold initPyZEALServices. rewrite I. reflexivity. Qed.
  Lemma init_sealed mode w listing st : (mode < 4)%N -> initialized st = false -> sealed (loc st) = true -> init mode w listing st = (st, Err ValueError).
  Proof.
    intros M I S. destruct st as [[tr si se] ini own lg]. cbn [loc initialized sealed] in *. subst ini se. unfold initPyZEALServices. cbn [initialized].
    assert (F : flag_in mode (N.lor CLI SCRIPT) = true).
    { destruct (mode_cases mode ltac:(lia)) as [-> |[-> |[-> |[-> |[-> |[-> |[-> | ->]]]]]]]; try reflexivity; exfalso; lia. }
    rewrite F. reflexivity.
  Qed.
  Lemma init_no_settings mode w listing st : (4 <= mode < 8)%N -> initialized st = false ->
    singleton_of stype_eqb (loc st) TSettings = None -> transient_of stype_eqb (loc st) TSettings = None ->
    init mode w listing st = (st, Err InvalidServiceConfiguration).
  Proof.
    intros M I S T. destruct st as [l ini own lg]. cbn [loc initialized] in *. subst ini. unfold initPyZEALServices. cbn [initialized].
    assert (F : flag_in mode (N.lor CLI SCRIPT) = false).
    { destruct (mode_cases mode ltac:(lia)) as [-> |[-> |[-> |[-> |[-> |[-> |[-> | ->]]]]]]]; try reflexivity; exfalso; lia. }
    rewrite F. cbn [if_ then_ loc]. unfold with_logger, settings_level. cbn [tryResolve]. unfold singleton_of, transient_of in *. rewrite S, T.
    cbn [Init_Model.isinst snd bind is_ok]. rewrite orb_false_r. reflexivity.
  Qed.
  (** Broken settings: nothing but the settings factory is registered. *)
  Lemma init_bad_settings mode w listing st e : (mode < 4)%N -> initialized st = false -> sealed (loc st) = false ->
    singleton_of stype_eqb (loc st) TSettings = None -> settings_init w = Err e ->
    exists l1, init mode w listing st = (mkPyzeal l1 false (own_logger st) (logs st), Err e) /\ singletons l1 = singletons (loc st) /\ sealed l1 = false /\ forall t, transient_of stype_eqb l1 t = match t with TSettings => Some settings_factory | _ => transient_of stype_eqb (loc st) t end.
  Proof.
    intros M I S G E. destruct st as [[tr si se] ini own lg]. cbn [loc initialized sealed own_logger logs] in *. subst ini se. unfold initPyZEALServices. cbn [initialized].
    assert (F : flag_in mode (N.lor CLI SCRIPT) = true).
    { destruct (mode_cases mode ltac:(lia)) as [-> |[-> |[-> |[-> |[-> |[-> |[-> | ->]]]]]]]; try reflexivity; exfalso; lia. }
    rewrite F. cbn [if_ on_loc register fold_left registerAsTransient sealed then_ loc initialized own_logger logs fst snd transients singletons].
    unfold with_logger, settings_level. cbn [tryResolve]. unfold singleton_of in G. cbn [singletons transients] in *. rewrite G.
    cbn [Init_Model.isinst]. rewrite dget_dset_if. cbn [stype_eqb settings_factory f_params f_call bind_arguments p_name p_default dget bind]. rewrite E.
    cbn [bind snd is_ok then_]. rewrite orb_false_r. eexists. split; [reflexivity|]. split; [reflexivity|]. split; [reflexivity|].
    intro t. unfold transient_of. cbn [transients]. rewrite dget_dset_if. destruct t; reflexivity.
  Qed.

  (** After an initialization with the command line services: what resolving gives, at any later time. *)
  Lemma resolve_settings (l : locator) w s kw : singleton_of stype_eqb l TSettings = None -> transient_of stype_eqb l TSettings = Some settings_factory ->
    settings_init w = Ok s -> tryResolve stype_eqb isinst ONone (S depth) l TSettings kw w = (w, Ok (OSettings s)).
  Proof.
    intros H T I. cbn [tryResolve]. unfold singleton_of, transient_of in *. rewrite H. cbn [Init_Model.isinst]. rewrite T.
    cbn [settings_factory f_params f_call bind_arguments p_name p_default bind].
    destruct (dget String.eqb "settingsType" kw); cbn [bind]; rewrite I; reflexivity.
  Qed.
  Lemma resolve_controller (l : locator) w s : (forall t, In t [TController; TTesting; TSettings] -> singleton_of stype_eqb l t = None) ->
    transient_of stype_eqb l TSettings = Some settings_factory -> transient_of stype_eqb l TController = Some controller_factory ->
    transient_of stype_eqb l TTesting = Some testing_factory -> settings_init w = Ok s ->
    tryResolve stype_eqb isinst ONone (S (S depth)) l TController [] w = (w, Ok (OController OTesting (OSettings s))).
  Proof.
    intros H T1 T2 T3 I. pose proof (resolve_settings l w s [] (H TSettings ltac:(cbn; tauto)) T1 I) as R.
    assert (R2 : tryResolve stype_eqb isinst ONone (S depth) l TTesting [] w = (w, Ok OTesting)).
    { cbn [tryResolve]. pose proof (H TTesting ltac:(cbn; tauto)) as X. unfold singleton_of, transient_of in *. rewrite X. cbn [Init_Model.isinst]. rewrite T3. reflexivity. }
    remember (S depth) as n. cbn [tryResolve]. pose proof (H TController ltac:(cbn; tauto)) as X. unfold singleton_of, transient_of in *. rewrite X.
    cbn [Init_Model.isinst]. rewrite T2. cbn [controller_factory f_params bind_arguments p_name p_default p_annotation dget f_call]. rewrite R2. rewrite R. reflexivity.
  Qed.
End Init.
