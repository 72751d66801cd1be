(** * Specification vocabulary for the log level of a finder (C83) *)
From Verif Require Import PyBase Json_Model Settings_Model Log_Model Log_Spec LogFinder_Model.
Open Scope list_scope.

(** The objects the documentation of setLevel names: the finder, its container, its algorithm. *)
Definition named (x : finder_parts) (i : nat) : Prop :=
  i = fp_finder x \/ i = fp_container x \/ i = fp_algorithm x.

(** What a call of logger n's level is called: the level in force for messages of object i. *)
Definition level_at (class_of : nat -> class) (st : logging) (i : nat) : Z :=
  lg_level (getLogger (module_name (class_of i)) st).

(** The object has used its logger in history [h] with settings available. *)
Definition used (h : list event) (i : nat) : Prop :=
  exists e lv, In e h /\ user e = Some (i, Ok lv).
