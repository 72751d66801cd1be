(** * Polynomials with prescribed zeros over any commutative ring (C27) *)
From Coq Require Import List.
Import ListNotations.

Section Ring.
  Context {T : Type} (zero one : T) (add mul : T -> T -> T) (opp : T -> T).

  Fixpoint ring_pow (z : T) (k : nat) : T := match k with O => one | S k' => mul z (ring_pow z k') end.
  Definition ring_sum (l : list T) : T := fold_right add zero l.
  (** p_1, ..., p_n of the n numbers [zs]. *)
  Definition ring_power_sums (zs : list T) : list T :=
    map (fun k => ring_sum (map (fun z => ring_pow z k) zs)) (seq 1 (length zs)).

  (** Coefficient lists, constant term first. *)
  Fixpoint ring_poly_add (p q : list T) : list T :=
    match p, q with
    | [], q => q
    | p, [] => p
    | a :: p', b :: q' => add a b :: ring_poly_add p' q'
    end.
  Definition ring_times_linear (z : T) (p : list T) : list T :=
    ring_poly_add (map (mul (opp z)) p) (zero :: p).
  (** The product of all (x - z). *)
  Definition ring_monic (zs : list T) : list T := fold_right ring_times_linear [one] zs.

  (** [divn x n] divides by the positive integer [n]: n-fold addition undoes it. *)
  Fixpoint ring_times (n : nat) (x : T) : T := match n with O => zero | S n' => add x (ring_times n' x) end.
End Ring.
