(** * Specification of the initialization (C61) *)
From Verif Require Import PyBase Json_Model Settings_Model Locator_Model Locator_Spec Loader_Model Log_Model Init_Model Install_Model.
Open Scope list_scope.

(** Flags: CLI = 1, SCRIPT = 2, GUI = 4; a mode is a combination, i.e. a number below 8. *)
Section Spec.
  Variables algorithm_factory container_factory estimator_factory : factory stype obj files.
  Notation locator := (locator stype obj files).
  (** What a mode registers: settings unless GUI is among the flags; the numerical services for SCRIPT alone,
      the command line services for CLI alone, both for the empty combination. *)
  Definition registered_by (mode : N) (t : stype) : option (factory stype obj files) :=
    match t with
    | TSettings => if N.ltb mode 4 then Some settings_factory else None
    | TAlgorithm => if (N.eqb mode 0 || N.eqb mode 2)%bool then Some algorithm_factory else None
    | TContainer => if (N.eqb mode 0 || N.eqb mode 2)%bool then Some container_factory else None
    | TEstimator => if (N.eqb mode 0 || N.eqb mode 2)%bool then Some estimator_factory else None
    | TController => if (N.eqb mode 0 || N.eqb mode 1)%bool then Some controller_factory else None
    | TTesting => if (N.eqb mode 0 || N.eqb mode 1)%bool then Some testing_factory else None
    | TParser | TUser _ => None
    end.
  Definition loads_plugins (mode : N) : bool := negb (N.eqb mode 0 || N.eqb mode 1).
  (** l' is l with the registrations of the mode. *)
  Definition extends (mode : N) (l l' : locator) : Prop :=
    sealed l' = sealed l /\
    (forall t, transient_of stype_eqb l' t = match registered_by mode t with Some f => Some f | None => transient_of stype_eqb l t end) /\
    (forall t, singleton_of stype_eqb l' t = match t with
               | TParser => if loads_plugins mode then singleton_of stype_eqb l t else Some OParser
               | _ => singleton_of stype_eqb l t end).
End Spec.
(** Settings are available: a registered service object, or the mode registers the JSON settings and the
    files are fine. *)
Definition settings_available (mode : N) (w : files) (l : locator stype obj files) : Prop :=
  (exists s lv, singleton_of stype_eqb l TSettings = Some (OSettings s) /\ get KLevel s = VLevel lv) \/
  (singleton_of stype_eqb l TSettings = None /\ (mode < 4)%N /\ exists s, settings_init w = Ok s).
Definition usable_logs (lg : logging) : Prop := forall d, dirs lg d <> NotDirectory.

(** The names in the directory d, in any order. *)
Definition lists (fs : tree) (d : place) (ns : list text) : Prop := forall n, In n ns <-> fs (n :: d) <> None.

(** Calls of the initialization, in any order and mode, with whatever files and plugin directory there are then. *)
Section Calls.
  Variable user_instance : nat -> stype -> bool.
  Variables algorithm_factory container_factory estimator_factory : factory stype obj files.
  Variable find_module : text -> res (@module stype obj files).
  Variable low : N -> text.
  Variable DATE : date.
  Variable depth : nat.
  Definition init_calls (h : list (N * files * res (list text))) (st : pyzeal) : pyzeal :=
    fold_left (fun st (c : N * files * res (list text)) => fst (initPyZEALServices user_instance algorithm_factory container_factory estimator_factory
      find_module low DATE depth (fst (fst c)) (snd (fst c)) (snd c) st)) h st.
End Calls.
