(** * Specification: calls cut off (C94) *)
From Verif Require Import PyBase Rounding_Spec Container_Model Container_Spec.

(** Complete calls that may stand for a call that was cut off: none, the call itself; for an
    add that changes the precision also a clear, or the add followed by a clear. *)
Definition instead_of (o : rc_op) (g : list rc_op) : Prop :=
  g = [] \/ g = [o] \/
  match o with RAdd _ _ _ => g = [RClear] \/ g = [o; RClear] | _ => False end.
(** A history of complete calls that stands for one with calls cut off ([Some _]). *)
Inductive stands_for : list rc_op -> list (rc_op * option nat) -> Prop :=
| sf_nil : stands_for [] []
| sf_done o g h : stands_for g h -> stands_for (o :: g) ((o, None) :: h)
| sf_cut o n g g' h : instead_of o g' -> stands_for g h -> stands_for (g' ++ g) ((o, Some n) :: h).
