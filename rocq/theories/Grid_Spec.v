(** * Specification vocabulary for C31 *)
From Verif Require Import PyBase.
Open Scope Z_scope.

(** A progress bar is attached and its task id is not 0. *)
Definition task_active (progress : bool) (task : option Z) : Prop :=
  progress = true /\ exists t, task = Some t /\ t <> 0.
