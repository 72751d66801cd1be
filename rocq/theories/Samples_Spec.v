(** * Specification vocabulary for the number of sample points of a line (C91) *)
From Coq Require Import Reals.
From Verif Require Import PyBase Sum_Model Sum_Spec.
Open Scope R_scope.

(** 100 n + 100 (2 sqrt(n/2) + 1) pi / delta, without the root: [k] rounds with k^2 <= 2 n. *)
Definition sample_limit (n : nat) (delta : R) (count : nat) : Prop :=
  exists k : nat, (k * k <= 2 * n)%nat /\ INR count <= 100 * INR n + INR (S k) * 100 * PI / delta.

(** All requests were made with these settings. *)
Definition same_settings (delta : R) (n : nat) (h : list request) : Prop :=
  forall q, In q h -> rq_delta q = delta /\ rq_numPts q = n.

(** Number of cached lines, and of stored arrays. *)
Definition stored_levels {A} (st : sum_state A) : nat :=
  (List.length (horizontal st) + List.length (vertical st))%nat.
Definition stored_arrays {A} (st : sum_state A) : nat :=
  list_sum (map (fun e => List.length (snd e)) (horizontal st ++ vertical st)).
