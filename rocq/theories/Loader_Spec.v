(** * Specification of plugin discovery (C60) *)
From Verif Require Import PyBase Json_Model Cli_Model Cli_Spec Locator_Model Locator_Spec Loader_Model.
Open Scope list_scope.

Definition private (s : text) : Prop := exists t, s = txt "__" ++ t.
(** name = stem.py (any case of py), where stem does not consist of dots only. *)
Definition python_file (name stem : text) : Prop :=
  (exists ext, name = stem ++ txt "." ++ ext /\ nocase ext (txt "py")) /\ exists c, In c stem /\ c <> dot.

Section Spec.
  Context {T V W : Type}.
  Notation plugin := (@plugin T V W).
  Notation module := (@module T V W).
  (** The plugin class of a module: the first (in dir() order) non-private one. *)
  Definition has_plugin (m : module) (p : plugin) : Prop :=
    exists pre name post, m = pre ++ (name, APlugin p) :: post /\ ~ private name /\
      forall n a, In (n, a) pre -> private n \/ forall p', a <> APlugin p'.
  (** The plugins in the candidates, in order: every candidate file stem is imported as
      <package>.<stem> giving the module [imp stem]. *)
  Inductive plugins_of (imp : text -> res module) : list text -> list plugin -> Prop :=
  | plugins_nil : plugins_of imp [] []
  | plugins_skip n ns ps : private n \/ (forall stem, ~ python_file n stem) -> plugins_of imp ns ps -> plugins_of imp (n :: ns) ps
  | plugins_none n stem m ns ps : ~ private n -> python_file n stem -> imp stem = Ok m -> (forall p, ~ has_plugin m p) ->
      plugins_of imp ns ps -> plugins_of imp (n :: ns) ps
  | plugins_one n stem m p ns ps : ~ private n -> python_file n stem -> imp stem = Ok m -> has_plugin m p ->
      plugins_of imp ns ps -> plugins_of imp (n :: ns) (p :: ps).
  (** A registered type gets the factory of the last plugin for it. *)
  Fixpoint last_for (teqb : T -> T -> bool) (t : T) (ps : list (T * factory T V W)) : option (factory T V W) :=
    match ps with
    | [] => None
    | (t', f) :: ps' => match last_for teqb t ps' with Some g => Some g | None => if teqb t t' then Some f else None end
    end.
  Definition works (p : plugin) (i : @instance T) (f : factory T V W) : Prop := getInstance p = Ok i /\ initialize p = Ok f.
End Spec.
(** The loaders of n successive calls of getInstance; new objects are numbered from [fresh] on. *)
Fixpoint instances (n : nat) (attr : option nat) (fresh : nat) : list nat :=
  match n with O => [] | S n' => let (attr', i) := loaderInstance attr fresh in i :: instances n' attr' (S fresh) end.
