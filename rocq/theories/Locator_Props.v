(** Properties C45-C49: the service locator.
    T: types, V: objects, W: the state of the rest of the world; [teqb] compares dictionary keys,
    [isinst v t] is isinstance(v, t) (an exception if t is not a class), [none] the object None.
    [located h]: the locator after the calls h on the initial one. *)
From Verif Require Import PyBase Locator_Model Locator_Spec Locator_Proofs.
Open Scope Z_scope.

(** ** C45 *)
Theorem C45_resolved_service_has_requested_type :
  forall (T V W : Type) (teqb : T -> T -> bool) (isinst : V -> T -> res bool) (none : V)
    (l : locator T V W) depth t kw w w' v,
    tryResolve teqb isinst none depth l t kw w = (w', Ok v) -> isinst v t = Ok true.
Proof. intros T V W teqb isinst none l depth t kw w w' v. exact (resolve_type teqb isinst none depth l t kw w w' v). Qed.
Print Assumptions C45_resolved_service_has_requested_type.

(** An object of another type is not accepted as a singleton: an exception, and nothing is registered. *)
Theorem C45_wrong_type_is_rejected :
  forall (T V W : Type) (teqb : T -> T -> bool) (isinst : V -> T -> res bool) (t : T) (v : V) (l : locator T V W),
    isinst v t <> Ok true -> exists e, registerAsSingleton teqb isinst t v l = (l, Err e).
Proof. intros T V W teqb isinst t v l. exact (wrong_type_rejected teqb isinst t v l). Qed.
Print Assumptions C45_wrong_type_is_rejected.

Theorem C45_unregistered_is_reported :
  forall (T V W : Type) (teqb : T -> T -> bool) (isinst : V -> T -> res bool) (none : V)
    (l : locator T V W) depth t kw w,
    singleton_of teqb l t = None -> transient_of teqb l t = None -> isinst none t = Ok false ->
    tryResolve teqb isinst none (S depth) l t kw w = (w, Err InvalidServiceConfiguration).
Proof. intros T V W teqb isinst none l depth t kw w. exact (unregistered teqb isinst none l depth t kw w). Qed.
Print Assumptions C45_unregistered_is_reported.

(** For a type of which None is an instance (object, Optional...) nothing has to be registered:
    None is returned, even if a factory is registered. *)
Theorem C45_none_is_served_refuted :
  forall (T V W : Type) (teqb : T -> T -> bool) (isinst : V -> T -> res bool) (none : V)
    (l : locator T V W) depth t kw w,
    singleton_of teqb l t = None -> isinst none t = Ok true ->
    tryResolve teqb isinst none (S depth) l t kw w = (w, Ok none).
Proof. intros T V W teqb isinst none l depth t kw w. exact (none_served teqb isinst none l depth t kw w). Qed.
Print Assumptions C45_none_is_served_refuted.

(** ** C46 *)
Theorem C46_latest_singleton_wins :
  forall (T V W : Type) (teqb : T -> T -> bool) (isinst : V -> T -> res bool) (none : V),
    (forall a b, teqb a b = true <-> a = b) ->
    forall (h : list (lop T V W)) depth t kw w v,
    latest_singleton teqb isinst (rev h) t = Some v ->
    tryResolve teqb isinst none (S depth) (located teqb isinst h) t kw w = (w, Ok v).
Proof. intros T V W teqb isinst none HT h depth t kw w v. exact (latest_singleton_wins teqb isinst none HT h depth t kw w v). Qed.
Print Assumptions C46_latest_singleton_wins.

(** The instance stays the same whatever happens, except re-registration of the type or clearing. *)
Theorem C46_singleton_identity :
  forall (T V W : Type) (teqb : T -> T -> bool) (isinst : V -> T -> res bool) (none : V),
    (forall a b, teqb a b = true <-> a = b) ->
    forall (h h' : list (lop T V W)) depth t kw w v,
    sealed (located teqb isinst h) = false -> isinst v t = Ok true ->
    (forall o, In o h' -> match o with RegSingleton t' _ => t' <> t | Clear => False | _ => True end) ->
    tryResolve teqb isinst none (S depth) (located teqb isinst (h ++ RegSingleton t v :: h')) t kw w = (w, Ok v).
Proof. intros T V W teqb isinst none HT h h' depth t kw w v. exact (singleton_identity teqb isinst none HT h h' depth t kw w v). Qed.
Print Assumptions C46_singleton_identity.

(** Without a singleton the newest accepted factory (none: the error) answers. *)
Theorem C46_latest_transient_wins :
  forall (T V W : Type) (teqb : T -> T -> bool) (isinst : V -> T -> res bool) (none : V),
    (forall a b, teqb a b = true <-> a = b) ->
    forall (h : list (lop T V W)) depth t kw w,
    latest_singleton teqb isinst (rev h) t = None -> isinst none t = Ok false ->
    match latest_transient teqb (rev h) t with
    | None => tryResolve teqb isinst none (S depth) (located teqb isinst h) t kw w = (w, Err InvalidServiceConfiguration)
    | Some f => forall w' v, tryResolve teqb isinst none (S depth) (located teqb isinst h) t kw w = (w', Ok v) ->
        exists args w1, f_call f args w1 = (w', Ok v)
    end.
Proof. intros T V W teqb isinst none HT h depth t kw w. exact (latest_transient_wins teqb isinst none HT h depth t kw w). Qed.
Print Assumptions C46_latest_transient_wins.

(** Only the registrations of the type and of its (transitive) constructor dependencies matter. *)
Theorem C46_other_registrations_do_not_matter :
  forall (T V W : Type) (teqb : T -> T -> bool) (isinst : V -> T -> res bool) (none : V)
    (D : T -> Prop) (l l' : locator T V W),
    agree_on teqb D l l' -> closed teqb D l ->
    forall depth t kw w, D t ->
      tryResolve teqb isinst none depth l t kw w = tryResolve teqb isinst none depth l' t kw w.
Proof. intros T V W teqb isinst none D l l'. exact (resolve_frame teqb isinst none D l l'). Qed.
Print Assumptions C46_other_registrations_do_not_matter.

(** ** C47 *)
Theorem C47_sealed_locator_is_frozen :
  forall (T V W : Type) (teqb : T -> T -> bool) (isinst : V -> T -> res bool) (h h' : list (lop T V W)),
    sealed (located teqb isinst h) = true -> forallb (fun o => negb (is_clear o)) h' = true ->
    located teqb isinst (h ++ h') = located teqb isinst h.
Proof. intros T V W teqb isinst h h'. exact (sealed_frozen teqb isinst h h'). Qed.
Print Assumptions C47_sealed_locator_is_frozen.

Theorem C47_registering_on_a_sealed_locator_raises :
  forall (T V W : Type) (teqb : T -> T -> bool) (isinst : V -> T -> res bool) (l : locator T V W) o,
    sealed l = true -> is_clear o = false -> perform teqb isinst o l = (l, Err ValueError).
Proof. intros T V W teqb isinst l o. exact (sealed_raises teqb isinst l o). Qed.
Print Assumptions C47_registering_on_a_sealed_locator_raises.

(** Sealing an unsealed locator succeeds and keeps every registration. *)
Theorem C47_sealing_succeeds :
  forall (T V W : Type) (teqb : T -> T -> bool) (isinst : V -> T -> res bool) (l : locator T V W),
    sealed l = false -> exists l', perform teqb isinst Seal l = (l', Ok tt) /\ sealed l' = true /\ transients l' = transients l /\ singletons l' = singletons l.
Proof.
  intros T V W teqb isinst l H. unfold perform, seal. rewrite H. eexists. split; [reflexivity|]. repeat split.
Qed.
Print Assumptions C47_sealing_succeeds.

(** When exactly a locator is sealed: the last of the seal and clear calls was a seal. *)
Theorem C47_sealed_iff_sealed_since_last_clear :
  forall (T V W : Type) (teqb : T -> T -> bool) (isinst : V -> T -> res bool) (h : list (lop T V W)),
    isSealed (located teqb isinst h) = true <->
    exists h1 h2, h = h1 ++ Seal :: h2 /\ forallb (fun o => negb (is_clear o)) h2 = true.
Proof. intros T V W teqb isinst h. exact (sealed_iff teqb isinst h). Qed.
Print Assumptions C47_sealed_iff_sealed_since_last_clear.

Theorem C47_clear_restores_the_initial_state :
  forall (T V W : Type) (teqb : T -> T -> bool) (isinst : V -> T -> res bool) (h : list (lop T V W)),
    located teqb isinst (h ++ [Clear]) = empty_locator.
Proof. intros T V W teqb isinst h. exact (located_snoc teqb isinst h Clear). Qed.
Print Assumptions C47_clear_restores_the_initial_state.

(** ** C48 *)
Theorem C48_argument_precedence :
  forall (T V W : Type) (teqb : T -> T -> bool) (isinst : V -> T -> res bool) (none : V)
    (l : locator T V W) depth t kw w w' v,
    singleton_of teqb l t = None -> isinst none t = Ok false ->
    tryResolve teqb isinst none (S depth) l t kw w = (w', Ok v) ->
    exists f args w1, transient_of teqb l t = Some f /\ f_call f args w1 = (w', Ok v) /\
      map fst args = map p_name (f_params f) /\
      Forall2 (fun (p : param T V) (a : string * V) =>
        match dget String.eqb (p_name p) kw with
        | Some v => snd a = v
        | None => match p_default p with
                  | Some v => snd a = v
                  | None => exists w1 w2, tryResolve teqb isinst none depth l (p_annotation p) [] w1 = (w2, Ok (snd a))
                  end
        end) (f_params f) args.
Proof. intros T V W teqb isinst none l depth t kw w w' v. exact (resolve_binding teqb isinst none depth l t kw w w' v). Qed.
Print Assumptions C48_argument_precedence.

Theorem C48_undeclared_keywords_are_ignored :
  forall (T V W : Type) (teqb : T -> T -> bool) (isinst : V -> T -> res bool) (none : V)
    (l : locator T V W) depth t kw kw' w,
    (forall f p, transient_of teqb l t = Some f -> In p (f_params f) ->
       dget String.eqb (p_name p) kw = dget String.eqb (p_name p) kw') ->
    tryResolve teqb isinst none depth l t kw w = tryResolve teqb isinst none depth l t kw' w.
Proof. intros T V W teqb isinst none l depth t kw kw' w. exact (extra_keywords teqb isinst none depth l t kw kw' w). Qed.
Print Assumptions C48_undeclared_keywords_are_ignored.

(** An unregistered dependency makes the resolution raise (the parameters before it being fine,
    exactly InvalidServiceConfiguration). *)
Theorem C48_unregistered_dependency :
  forall (T V W : Type) (teqb : T -> T -> bool) (isinst : V -> T -> res bool) (none : V)
    (l : locator T V W) depth t kw f pre p post w,
    singleton_of teqb l t = None -> isinst none t = Ok false ->
    transient_of teqb l t = Some f -> f_params f = pre ++ p :: post ->
    required p -> dget String.eqb (p_name p) kw = None ->
    (forall q, In q pre -> dget String.eqb (p_name q) kw <> None \/ p_default q <> None \/
       forall w, exists w' v, tryResolve teqb isinst none (S depth) l (p_annotation q) [] w = (w', Ok v)) ->
    singleton_of teqb l (p_annotation p) = None -> isinst none (p_annotation p) = Ok false ->
    transient_of teqb l (p_annotation p) = None ->
    exists w', tryResolve teqb isinst none (S (S depth)) l t kw w = (w', Err InvalidServiceConfiguration).
Proof. intros T V W teqb isinst none l depth t kw f pre p post w. exact (unregistered_dependency teqb isinst none depth l t kw f pre p post w). Qed.
Print Assumptions C48_unregistered_dependency.

Theorem C48_failing_dependency :
  forall (T V W : Type) (teqb : T -> T -> bool) (isinst : V -> T -> res bool) (none : V)
    (l : locator T V W) depth t kw f p e w,
    singleton_of teqb l t = None -> isinst none t = Ok false ->
    transient_of teqb l t = Some f -> In p (f_params f) -> required p -> dget String.eqb (p_name p) kw = None ->
    (forall w, exists w', tryResolve teqb isinst none depth l (p_annotation p) [] w = (w', Err e)) ->
    exists w' e', tryResolve teqb isinst none (S depth) l t kw w = (w', Err e').
Proof. intros T V W teqb isinst none l depth t kw f p e w. exact (dependency_fails teqb isinst none depth l t kw f p e w). Qed.
Print Assumptions C48_failing_dependency.

(** ** C49 *)
(** Acyclic (a rank decreases along required parameters) and complete: resolving succeeds as soon as
    the recursion depth exceeds the rank. *)
Theorem C49_acyclic_configurations_resolve :
  forall (T V W : Type) (teqb : T -> T -> bool) (isinst : V -> T -> res bool) (none : V)
    (l : locator T V W) (rank : T -> nat) (D : T -> Prop),
    (forall t, D t ->
       (exists v, singleton_of teqb l t = Some v /\ isinst v t = Ok true) \/
       (singleton_of teqb l t = None /\ isinst none t = Ok false /\
        exists f, transient_of teqb l t = Some f /\
          (forall p, In p (f_params f) -> required p -> D (p_annotation p) /\ (rank (p_annotation p) < rank t)%nat) /\
          (forall args w, map fst args = map p_name (f_params f) ->
             exists w' v, f_call f args w = (w', Ok v) /\ isinst v t = Ok true))) ->
    forall depth t kw w, D t -> (rank t < depth)%nat ->
      exists w' v, tryResolve teqb isinst none depth l t kw w = (w', Ok v) /\ isinst v t = Ok true.
Proof. intros T V W teqb isinst none l rank D. exact (acyclic teqb isinst none l rank D). Qed.
Print Assumptions C49_acyclic_configurations_resolve.

(** C: a set of services each of which needs another one of the set (a cycle, or an infinite path). *)
Theorem C49_cyclic_configurations_never_resolve :
  forall (T V W : Type) (teqb : T -> T -> bool) (isinst : V -> T -> res bool) (none : V)
    (l : locator T V W) (C : T -> Prop),
    (forall t, C t -> singleton_of teqb l t = None /\ isinst none t = Ok false /\
       exists f p, transient_of teqb l t = Some f /\ In p (f_params f) /\ required p /\ C (p_annotation p)) ->
    forall depth t kw f p w, C t -> transient_of teqb l t = Some f -> In p (f_params f) -> required p ->
      C (p_annotation p) -> dget String.eqb (p_name p) kw = None ->
      exists w' e, tryResolve teqb isinst none depth l t kw w = (w', Err e).
Proof. intros T V W teqb isinst none l C. exact (cyclic_raises teqb isinst none l C). Qed.
Print Assumptions C49_cyclic_configurations_never_resolve.

(** Breaking the cycle by an explicit keyword makes it resolvable: a self-dependent service. *)
Theorem C49_explicit_argument_breaks_the_cycle :
  forall (T V W : Type) (teqb : T -> T -> bool) (isinst : V -> T -> res bool) (none : V)
    (l : locator T V W) depth t kw f w,
    singleton_of teqb l t = None -> isinst none t = Ok false -> transient_of teqb l t = Some f ->
    (forall p, In p (f_params f) -> required p -> dget String.eqb (p_name p) kw <> None) ->
    (forall args w, map fst args = map p_name (f_params f) ->
             exists w' v, f_call f args w = (w', Ok v) /\ isinst v t = Ok true) ->
    exists w' v, tryResolve teqb isinst none (S depth) l t kw w = (w', Ok v).
Proof. intros T V W teqb isinst none l depth t kw f w. exact (explicit_breaks teqb isinst none l depth t kw f w). Qed.
Print Assumptions C49_explicit_argument_breaks_the_cycle.

(** ** Non-vacuity.  Types are numbers, 9 is `object`; an object is a number whose class it names (None = 0);
    the world counts constructor calls.  Class 1 needs 2 and 3 (default 3), class 2 needs nothing,
    4 and 5 need each other, 6 is a singleton. *)
Definition ex_inst (v t : nat) : res bool := Ok (Nat.eqb v t || Nat.eqb t 9).
Definition ex_make (ps : list (param nat nat)) (v : nat) : factory nat nat nat :=
  mkFactory ps (fun _ w => (S w, Ok v)).
Definition ex_history : list (lop nat nat nat) :=
  [RegTransient 1%nat (ex_make [mkParam "a" None 2%nat; mkParam "b" (Some 3%nat) 3%nat] 1%nat);
   RegTransient 2%nat (ex_make [] 2%nat);
   RegTransient 4%nat (ex_make [mkParam "x" None 5%nat] 4%nat);
   RegTransient 5%nat (ex_make [mkParam "x" None 4%nat] 5%nat);
   RegSingleton 6%nat 6%nat; RegSingleton 6%nat 7%nat; Seal; RegTransient 6%nat (ex_make [] 6%nat)].
Definition ex_locator := located Nat.eqb ex_inst ex_history.
Example ex_resolve_1 : tryResolve Nat.eqb ex_inst 0%nat 5 ex_locator 1%nat [] 0%nat = (2%nat, Ok 1%nat).
Proof. reflexivity. Qed.
Example ex_resolve_4 : tryResolve Nat.eqb ex_inst 0%nat 5 ex_locator 4%nat [] 0%nat = (0%nat, Err RecursionError).
Proof. reflexivity. Qed.
Example ex_resolve_4_kw : tryResolve Nat.eqb ex_inst 0%nat 5 ex_locator 4%nat [("x"%string, 5%nat)] 0%nat = (1%nat, Ok 4%nat).
Proof. reflexivity. Qed.
Example ex_resolve_6 : tryResolve Nat.eqb ex_inst 0%nat 5 ex_locator 6%nat [] 0%nat = (0%nat, Ok 6%nat).
Proof. reflexivity. Qed.
Example ex_resolve_9 : tryResolve Nat.eqb ex_inst 0%nat 5 ex_locator 9%nat [] 0%nat = (0%nat, Ok 0%nat).
Proof. reflexivity. Qed.
Example ex_sealed : isSealed ex_locator = true. Proof. reflexivity. Qed.
Example ex_latest : latest_singleton Nat.eqb ex_inst (rev ex_history) 6%nat = Some 6%nat. Proof. reflexivity. Qed.
(** The hypotheses of the acyclic theorem hold for {1, 2, 6}, those of the cyclic one for {4, 5}. *)
Example ex_acyclic : forall kw w, exists w' v, tryResolve Nat.eqb ex_inst 0%nat 3 ex_locator 1%nat kw w = (w', Ok v) /\ ex_inst v 1%nat = Ok true.
Proof.
  intros kw w.
  apply (C49_acyclic_configurations_resolve nat nat nat Nat.eqb ex_inst 0%nat ex_locator
           (fun t => if Nat.eqb t 1 then 1%nat else 0%nat) (fun t => t = 1%nat \/ t = 2%nat \/ t = 6%nat)); [|now left|repeat constructor].
  intros t [H|[H|H]]; subst t.
  - right. do 2 (split; [reflexivity|]). eexists. split; [reflexivity|]. split.
    + intros p [H|[H|[]]] R; subst p; [|discriminate R]. cbn. split; [tauto|repeat constructor].
    + intros args w0 _. eexists _, _. split; reflexivity.
  - right. do 2 (split; [reflexivity|]). eexists. split; [reflexivity|]. split.
    + intros p [].
    + intros args w0 _. eexists _, _. split; reflexivity.
  - left. exists 6%nat. split; reflexivity.
Qed.
Example ex_cyclic : forall depth w, exists w' e, tryResolve Nat.eqb ex_inst 0%nat depth ex_locator 4%nat [] w = (w', Err e).
Proof.
  intros depth w.
  refine (C49_cyclic_configurations_never_resolve nat nat nat Nat.eqb ex_inst 0%nat ex_locator
           (fun t => t = 4%nat \/ t = 5%nat) _ depth 4%nat [] _ _ w _ (eq_refl (Some (ex_make [mkParam "x" None 5%nat] 4%nat))) (or_introl eq_refl) eq_refl _ eq_refl); [|now left|now right].
  intros t [H|H]; subst t; do 2 (split; [reflexivity|]); eexists _, _;
    (split; [reflexivity|]); (split; [left; reflexivity|]); (split; [reflexivity|]); cbn; tauto.
Qed.
