(** * Specification vocabulary for the cost of a search (C87) *)
From Verif Require Import PyBase Refine_Model Refine_Spec.
Open Scope Z_scope.

(** The estimator was asked for a moment: every request, and those of positive order. *)
Definition requests (l : list event) : list (Z * rect) :=
  flat_map (fun e => match e with EvMoment k r _ => [(k, r)] | _ => [] end) l.
Definition order_zero (a : Z * rect) : bool := fst a =? 0.
Definition winding_requests (l : list event) : nat := List.length (filter order_zero (requests l)).
Definition moment_requests (l : list event) : nat :=
  List.length (filter (fun a => negb (order_zero a)) (requests l)).

(** [k] halvings bring the width [w] below [eps]. *)
Definition enough_halvings (w eps : Q) (k : nat) : Prop :=
  (w < inject_Z (2 ^ Z.of_nat k) * eps)%Q.
