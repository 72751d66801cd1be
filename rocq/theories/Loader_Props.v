(** * Property C60: plugin discovery and loading *)
From Verif Require Import PyBase Json_Model Cli_Model Cli_Spec Locator_Model Locator_Spec Loader_Model Loader_Spec Loader_Proofs.
Open Scope list_scope.

(** Discovery: the names not starting with "__". *)
Theorem C60_discovery : forall listing n, In n (discoverModules listing) <-> In n listing /\ ~ private n.
Proof. exact discovery. Qed.
Print Assumptions C60_discovery.
Theorem C60_discovery_order : forall l1 l2, discoverModules (l1 ++ l2) = discoverModules l1 ++ discoverModules l2.
Proof. exact discovery_order. Qed.
Print Assumptions C60_discovery_order.
(** A file is a candidate module iff it is <stem>.py, up to case, with a stem that has more than dots. *)
Theorem C60_candidate : forall low n, ascii n -> n <> txt "__init__.py" ->
  (forall stem, python_file n stem -> isPyFile low n = txt "." ++ stem) /\ ((forall stem, ~ python_file n stem) -> isPyFile low n = []).
Proof. exact candidate. Qed.
Print Assumptions C60_candidate.
(** One plugin class per module: the first one. *)
Theorem C60_first_plugin_of_module : forall T V W (m : @module T V W),
  match loadPlugin m with Some p => has_plugin m p | None => forall p, ~ has_plugin m p end.
Proof. intros T V W m. exact (loadPlugin_spec m). Qed.
Print Assumptions C60_first_plugin_of_module.
(** If everything can be imported and works, the plugins are instantiated in directory order and each type gets
    the factory of the last plugin for it; other registrations stay. *)
Theorem C60_load : forall T V W teqb (find_module : text -> res (@module T V W)) low,
  (forall a b, teqb a b = true <-> a = b) ->
  forall ns ps is_ fs (l : locator T V W), Forall ascii ns ->
  plugins_of (fun stem => import_module find_module (txt "." ++ stem) PACKAGE) ns ps -> sealed l = false ->
  Forall2 (fun p x => works p (fst x) (snd x)) ps (combine is_ fs) -> List.length is_ = List.length fs ->
  exists l', loadPlugins teqb find_module low (Ok tt) (Ok ns) l = (l', Ok is_) /\ singletons l' = singletons l /\ sealed l' = false /\
    forall t, transient_of teqb l' t = match last_for teqb t (combine (map i_type is_) fs) with Some f => Some f | None => transient_of teqb l t end.
Proof. intros T V W teqb fm low H. exact (load_spec teqb H fm low). Qed.
Print Assumptions C60_load.
(** One module that cannot be imported: nothing is registered. *)
Theorem C60_isolation_refuted : forall T V W teqb (find_module : text -> res (@module T V W)) low ns n stem e (l : locator T V W),
  Forall ascii ns -> In n ns -> ~ private n -> python_file n stem ->
  import_module find_module (txt "." ++ stem) PACKAGE = Err e ->
  exists e', loadPlugins teqb find_module low (Ok tt) (Ok ns) l = (l, Err e') /\
    exists n' stem', In n' ns /\ ~ private n' /\ python_file n' stem' /\ import_module find_module (txt "." ++ stem') PACKAGE = Err e'.
Proof. intros T V W teqb fm low. exact (load_error teqb fm low). Qed.
Print Assumptions C60_isolation_refuted.
(** A plugin whose getInstance raises: the ones before it stay registered, the ones after are not. *)
Theorem C60_failing_instance : forall T V W teqb (pre : list (@plugin T V W)) p post is_ fs (l : locator T V W) e, sealed l = false ->
  Forall2 (fun p x => works p (fst x) (snd x)) pre (combine is_ fs) -> List.length is_ = List.length fs -> getInstance p = Err e ->
  exists l', register_plugins teqb (pre ++ p :: post) l = (l', Err e) /\ register_plugins teqb pre l = (l', Ok is_).
Proof. intros T V W teqb pre p post is_ fs l e. exact (register_fail teqb pre p post is_ fs l e). Qed.
Print Assumptions C60_failing_instance.
(** The modules are looked up in a package pyzeal_plugins.  Where there is none (it is not part of the
    distribution), no plugin is ever loaded: a single candidate file makes loading fail. *)
Theorem C60_installed_plugins_load_refuted : forall T V W teqb (find_module : text -> res (@module T V W)) low ns (l : locator T V W),
  find_module (txt "pyzeal_plugins") = Err ModuleNotFoundError -> Forall ascii ns ->
  ((exists n stem, In n ns /\ ~ private n /\ python_file n stem) ->
     exists e, loadPlugins teqb find_module low (Ok tt) (Ok ns) l = (l, Err e) /\ (e = ModuleNotFoundError \/ e = ImportError)) /\
  ((forall n stem, In n ns -> private n \/ ~ python_file n stem) -> loadPlugins teqb find_module low (Ok tt) (Ok ns) l = (l, Ok [])).
Proof. intros T V W teqb fm low. exact (never_loads teqb fm low). Qed.
Print Assumptions C60_installed_plugins_load_refuted.
(** getInstance never stores its instance: n calls give n different loaders. *)
Theorem C60_singleton_refuted : forall n fresh, NoDup (instances n None fresh).
Proof. exact instances_distinct. Qed.
Print Assumptions C60_singleton_refuted.
(** Printing a plugin: 30 columns with the name, cut or padded by blanks, then its version. *)
Theorem C60_plugin_str : forall T digits (i : @instance T), exists name rest, plugin_str digits i = name ++ rest /\ List.length name = 30%nat /\
  (forall k c, nth_error name k = Some c -> nth_error (i_name i) k = Some c \/ c = 32%N /\ (List.length (i_name i) <= k)%nat) /\
  (forall k, (k < 30)%nat -> forall c, nth_error (i_name i) k = Some c -> nth_error name k = Some c) /\
  exists a b c, i_version i = (a, b, c) /\ rest = txt "  @ v" ++ digits a ++ txt "." ++ digits b ++ txt "." ++ digits c.
Proof. intros T digits i. exact (str_shape digits i). Qed.
Print Assumptions C60_plugin_str.

Definition fac0 (v : nat) : factory nat nat unit := mkFactory [] (fun _ w => (w, Ok v)).
Definition plug0 (t v : nat) : @plugin nat nat unit := mkPlugin (Ok (mkInstance t (txt "p") (1, 0, 0)%Z)) (Ok (fac0 v)).
Definition modules0 (n : text) : res (@module nat nat unit) :=
  if text_eqb n (txt "pyzeal_plugins") then Ok [] else if text_eqb n PACKAGE then Ok []
  else if text_eqb n (PACKAGE ++ txt ".one") then Ok [(txt "A", AOther); (txt "B", APlugin (plug0 1 10)); (txt "C", APlugin (plug0 1 11)); (txt "PyZEALPlugin", ABase)]
  else if text_eqb n (PACKAGE ++ txt ".two") then Ok [(txt "Z", APlugin (plug0 1 20))]
  else Err ModuleNotFoundError.
Example C60_nonvacuous :
  (exists l', loadPlugins Nat.eqb modules0 (fun _ => []) (Ok tt) (Ok [txt "one.py"; txt "__init__.py"; txt "data.txt"; txt "two.PY"]) (empty_locator) = (l', Ok [mkInstance 1%nat (txt "p") (1, 0, 0)%Z; mkInstance 1%nat (txt "p") (1, 0, 0)%Z]) /\
    exists f, transient_of Nat.eqb l' 1%nat = Some f /\ f_call f [] tt = (tt, Ok 20%nat)) /\
  python_file (txt "two.PY") (txt "two") /\ ~ private (txt "two.PY").
Proof.
  split; [|split; [split|]].
  - eexists. split; [vm_compute; reflexivity|]. eexists. split; [vm_compute; reflexivity|]. reflexivity.
  - exists (txt "PY"). split; [reflexivity|]. repeat constructor; unfold same_letter; cbn; lia.
  - exists 116%N. split; [left; reflexivity|discriminate].
  - intros (t & E). discriminate.
Qed.
