(** * Specification vocabulary for the floating point grid *)
From Verif Require Import PyBase Float_Spec.
Open Scope Q_scope.

(** Both ends are binary64 numbers / have size at most 2^k. *)
Definition double_pair (r : Q * Q) : Prop := is_double (fst r) /\ is_double (snd r).
Definition below (k : Z) (r : Q * Q) : Prop := Qabs (fst r) <= 2 ^ k /\ Qabs (snd r) <= 2 ^ k.

(** An interval which is empty or at least n * 2^-1022 wide. *)
Definition wide (n : nat) (r : Q * Q) : Prop :=
  fst r == snd r \/ inject_Z (Z.of_nat n) * 2 ^ (-1022) <= snd r - fst r.
