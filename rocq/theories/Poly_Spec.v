(** * Specification vocabulary for associated polynomials (C26-C28) *)
From Coq Require Import Permutation.
From Verif Require Import PyBase Poly_Model.
Open Scope Z_scope.

(** Power sums of a list of complex numbers. *)
Fixpoint cpow (z : cplx) (k : nat) : cplx :=
  match k with O => c1 | S k' => cmul z (cpow z k') end.
Definition csum (l : list cplx) : cplx := fold_right cadd c0 l.
Definition power_sum (zs : list cplx) (k : nat) : cplx := csum (map (fun z => cpow z k) zs).
(** p_1, ..., p_n for n zeros. *)
Definition power_sums (zs : list cplx) : list cplx := map (power_sum zs) (seq 1 (List.length zs)).

(** Polynomials as coefficient lists, constant term first; equality of coefficients. *)
Definition poly_eq (p q : list cplx) : Prop := Forall2 ceq p q.
Fixpoint poly_add (p q : list cplx) : list cplx :=
  match p, q with
  | [], q => q
  | p, [] => p
  | a :: p', b :: q' => cadd a b :: poly_add p' q'
  end.
Definition poly_scale (c : cplx) (p : list cplx) : list cplx := map (cmul c) p.
(** (x - z) * p = x * p + (-z) * p. *)
Definition times_linear (z : cplx) (p : list cplx) : list cplx :=
  poly_add (poly_scale (copp z) p) (c0 :: p).
(** The product of all (x - z). *)
Definition monic_with_zeros (zs : list cplx) : list cplx := fold_right times_linear [c1] zs.

Definition eval_poly (p : list cplx) (x : cplx) : cplx :=
  fold_right (fun c acc => cadd c (cmul x acc)) c0 p.
Definition product_at (zs : list cplx) (x : cplx) : cplx :=
  fold_right cmul c1 (map (fun z => cadd x (copp z)) zs).

(** The same complex numbers with the same multiplicities. *)
Definition same_multiset (l1 l2 : list cplx) : Prop :=
  exists l, Permutation l1 l /\ Forall2 ceq l l2.

(** [solve] finds all roots, with multiplicity, of the monic polynomials whose roots are
    some of [zeros]. *)
Definition exact_solver (zeros : list cplx) (solve : list cplx -> res (list cplx)) : Prop :=
  forall p f, poly_eq p (monic_with_zeros (filter f zeros)) ->
    exists rts, solve p = Ok rts /\ poly_eq p (monic_with_zeros rts).

(** Within the requested tolerance in both coordinates. *)
Definition within (p : Z * Z) (a b : cplx) : Prop :=
  (Qabs (re a - re b) < pow10 (- fst p) /\ Qabs (im a - im b) < pow10 (- snd p))%Q.

(** [n] is the number of members of [l] satisfying [P]. *)
Inductive count_of {A} (P : A -> Prop) : list A -> Z -> Prop :=
| count_nil : count_of P [] 0
| count_yes a l n : P a -> count_of P l n -> count_of P (a :: l) (n + 1)
| count_no a l n : ~ P a -> count_of P l n -> count_of P (a :: l) n.

(** [groups] partitions [roots]: each group consists of [order] many of the roots, all
    within tolerance of the representative, which is one of them. *)
Definition partitions (p : Z * Z) (roots : list cplx) (groups : list (cplx * Z)) : Prop :=
  exists clusters : list (list cplx),
    Permutation (List.concat clusters) roots /\
    Forall2 (fun g cl => snd g = Z.of_nat (List.length cl) /\ In (fst g) cl /\
                         forall a, In a cl -> within p a (fst g)) groups clusters.
