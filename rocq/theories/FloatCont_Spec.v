(** * Specification vocabulary for the floating point container *)
From Verif Require Import PyBase Container_Model Float_Model Float_Spec.
Open Scope Q_scope.

(** A root whose coordinates are doubles; a history using only such roots. *)
Definition double_root (r : root) : Prop := is_double (re (fst r)) /\ is_double (im (fst r)).
Definition double_history (h : list rc_op) : Prop :=
  (forall info r ctx, In (RAdd info r ctx) h -> double_root r) /\
  (forall r, In (RRemove r) h -> double_root r).

(** Each coordinate replaced by the nearest double (C65 specifies [rnd64]). *)
Definition as_doubles (s : root) : root := ((rnd64 (re (fst s)), rnd64 (im (fst s))), snd s).
