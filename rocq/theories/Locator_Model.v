(** * The service locator: utils/service_locator.py *)
From Verif Require Import PyBase.
Open Scope Z_scope.

Section Locator.
  (** Types (dictionary keys and annotations), Python objects, the rest of the world. *)
  Context {T V W : Type}.
  Variable teqb : T -> T -> bool.
  (** isinstance(v, t); an error (TypeError) if t is no class, e.g. a string annotation. *)
  Variable isinst : V -> T -> res bool.
  Variable none : V.                             (* the object None *)

  (** One entry of inspect.signature(factory).parameters. Code: service_locator.py:101, 106-115. *)
  Record param : Type := mkParam { p_name : string; p_default : option V; p_annotation : T }.
  (** A factory: its signature and what calling it with keyword arguments does.  Factories may
      change the world but (simplification) not the locator. Code: service_locator.py:26, 98-116. *)
  Record factory : Type := mkFactory { f_params : list param; f_call : list (string * V) -> W -> W * res V }.

  (** The class attributes, service_locator.py:26-30. *)
  Record locator : Type := mkLocator {
    transients : list (T * factory); singletons : list (T * V); sealed : bool }.
  (** service_locator.py:26-30, 145-153. *)
  Definition empty_locator : locator := mkLocator [] [] false.

  (** service_locator.py:33-55 *)
  Definition registerAsSingleton (t : T) (v : V) (l : locator) : locator * res unit :=
    if sealed l then (l, Err ValueError)
    else match isinst v t with
         | Err e => (l, Err e)
         | Ok true => (mkLocator (transients l) (dset teqb t v (singletons l)) (sealed l), Ok tt)
         | Ok false => (l, Err InvalidServiceConfiguration)
         end.

  (** service_locator.py:58-77 *)
  Definition registerAsTransient (t : T) (f : factory) (l : locator) : locator * res unit :=
    if sealed l then (l, Err ValueError)
    else (mkLocator (dset teqb t f (transients l)) (singletons l) (sealed l), Ok tt).

  (** service_locator.py:105-116: the loop binding the factory's parameters. *)
  Fixpoint bind_arguments (resolve : T -> W -> W * res V) (kwargs : list (string * V))
      (ps : list param) (w : W) : W * res (list (string * V)) :=
    match ps with
    | [] => (w, Ok [])
    | p :: ps' =>
        let (w1, r) :=
          match dget String.eqb (p_name p) kwargs with
          | Some v => (w, Ok v)
          | None => match p_default p with
                    | Some v => (w, Ok v)
                    | None => resolve (p_annotation p) w
                    end
          end in
        match r with
        | Err e => (w1, Err e)
        | Ok v => let (w2, r2) := bind_arguments resolve kwargs ps' w1 in
                  (w2, bind r2 (fun args => Ok ((p_name p, v) :: args)))
        end
    end.

  (** service_locator.py:80-121; [depth] is the remaining recursion depth of the interpreter. *)
  Fixpoint tryResolve (depth : nat) (l : locator) (t : T) (kwargs : list (string * V)) (w : W) : W * res V :=
    match depth with
    | O => (w, Err RecursionError)
    | S n =>
        let instance := match dget teqb t (singletons l) with Some v => v | None => none end in
        match isinst instance t with
        | Err e => (w, Err e)
        | Ok true => (w, Ok instance)
        | Ok false =>
            match dget teqb t (transients l) with
            | None => (w, Err InvalidServiceConfiguration)
            | Some f =>
                let (w1, args) := bind_arguments (fun t' w' => tryResolve n l t' [] w') kwargs (f_params f) w in
                match args with
                | Err e => (w1, Err e)
                | Ok args =>
                    let (w2, r) := f_call f args w1 in
                    match r with
                    | Err e => (w2, Err e)
                    | Ok v => (w2, match isinst v t with
                                   | Err e => Err e
                                   | Ok true => Ok v
                                   | Ok false => Err InvalidServiceConfiguration
                                   end)
                    end
                end
            end
        end
    end.

  (** service_locator.py:123-134 *)
  Definition seal (l : locator) : locator * res unit :=
    if sealed l then (l, Err ValueError) else (mkLocator (transients l) (singletons l) true, Ok tt).
  (** service_locator.py:136-143 *)
  Definition isSealed (l : locator) : bool := sealed l.
  (** service_locator.py:145-153 *)
  Definition clearConfigurations (l : locator) : locator := mkLocator [] [] false.
End Locator.
Arguments param : clear implicits.
Arguments factory : clear implicits.
Arguments locator : clear implicits.
Arguments mkParam {T V}.
Arguments mkFactory {T V W}.
