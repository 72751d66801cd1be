(** * Specification of the service locator (C45-C49) *)
From Verif Require Import PyBase Locator_Model.
Open Scope Z_scope.

Section Spec.
  Context {T V W : Type}.
  Variable teqb : T -> T -> bool.
  Variable isinst : V -> T -> res bool.

  (** Calls that may change the locator. *)
  Inductive lop : Type :=
  | RegSingleton (t : T) (v : V)
  | RegTransient (t : T) (f : factory T V W)
  | Seal
  | Clear.
  Definition perform (o : lop) (l : locator T V W) : locator T V W * res unit :=
    match o with
    | RegSingleton t v => registerAsSingleton teqb isinst t v l
    | RegTransient t f => registerAsTransient teqb t f l
    | Seal => seal l
    | Clear => (clearConfigurations l, Ok tt)
    end.
  Definition located (h : list lop) : locator T V W := fold_left (fun l o => fst (perform o l)) h empty_locator.

  (** Histories read backwards (newest call first). *)
  Fixpoint sealed_by (h : list lop) : bool :=
    match h with
    | [] => false
    | Clear :: _ => false
    | Seal :: _ => true
    | _ :: h' => sealed_by h'
    end.
  (** The newest accepted singleton for t since the last clear. *)
  Fixpoint latest_singleton (h : list lop) (t : T) : option V :=
    match h with
    | [] => None
    | Clear :: _ => None
    | RegSingleton t' v :: h' =>
        if teqb t t' && negb (sealed_by h') && match isinst v t' with Ok b => b | Err _ => false end
        then Some v else latest_singleton h' t
    | _ :: h' => latest_singleton h' t
    end.
  Fixpoint latest_transient (h : list lop) (t : T) : option (factory T V W) :=
    match h with
    | [] => None
    | Clear :: _ => None
    | RegTransient t' f :: h' => if teqb t t' && negb (sealed_by h') then Some f else latest_transient h' t
    | _ :: h' => latest_transient h' t
    end.

  Definition is_clear (o : lop) : bool := match o with Clear => true | _ => false end.
  Definition registers (o : lop) : bool := match o with RegSingleton _ _ | RegTransient _ _ => true | _ => false end.

  (** What the locator has for a type. *)
  Definition singleton_of (l : locator T V W) (t : T) : option V := dget teqb t (singletons l).
  Definition transient_of (l : locator T V W) (t : T) : option (factory T V W) := dget teqb t (transients l).
  Definition agree_on (D : T -> Prop) (l l' : locator T V W) : Prop :=
    forall t, D t -> singleton_of l t = singleton_of l' t /\ transient_of l t = transient_of l' t.
  (** A parameter that needs a service (when not passed explicitly). *)
  Definition required (p : param T V) : Prop := p_default p = None.
  (** D contains the annotations of all required parameters of its factories. *)
  Definition closed (D : T -> Prop) (l : locator T V W) : Prop :=
    forall t f p, D t -> transient_of l t = Some f -> In p (f_params f) -> required p -> D (p_annotation p).
End Spec.
Arguments lop : clear implicits.
