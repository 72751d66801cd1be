(** * Associated polynomials: algorithms/polynomial_holo.py:107-131 and
    algorithms/wrappers/classical_polynomial.py *)
From Verif Require Import PyBase.
Open Scope Z_scope.

(** The coefficient computation only uses ring operations and division by a positive
    integer, so it is written over an arbitrary carrier. *)
Section Coefficients.
  Context {T : Type} (zero one : T) (add mul : T -> T -> T) (opp : T -> T) (divn : T -> nat -> T).

  (** polynomial_holo.py:117-122: the inner loop; [rc] lists the coefficients computed so
      far, most recent first ([coefficients[-1]], [coefficients[-2]], ...). *)
  Fixpoint newton_sum (tempSign : bool) (rc moments : list T) (temp : T) : T :=
    match rc, moments with
    | c :: rc', m :: moments' =>
        let t := mul c m in
        newton_sum (negb tempSign) rc' moments' (add temp (if tempSign then t else opp t))
    | _, _ => temp
    end.

  (** polynomial_holo.py:116-123: the outer loop, [k] running from [k] for [n] rounds. *)
  Fixpoint newton_loop (n k : nat) (moments rc : list T) : list T :=
    match n with
    | O => rc
    | S n' => newton_loop n' (S k) moments (divn (newton_sum true rc moments zero) k :: rc)
    end.

  (** polynomial_holo.py:125-128: alternate the signs. *)
  Fixpoint alternate (sign : bool) (l : list T) : list T :=
    match l with
    | [] => []
    | c :: l' => (if sign then c else opp c) :: alternate (negb sign) l'
    end.

  (** polynomial_holo.py:107-131, [coefficientsFromMoments]. *)
  Definition coefficientsFromMoments (moments : list T) : list T :=
    let coefficients := rev (newton_loop (List.length moments) 1 moments [one]) in
    rev (alternate true coefficients).
End Coefficients.

(** Complex arithmetic on rational coordinates. Code: polynomial_holo.py:117-128. *)
Definition cadd (z w : cplx) : cplx := (re z + re w, im z + im w)%Q.
(** Negation, polynomial_holo.py:117-128. *)
Definition copp (z : cplx) : cplx := (- re z, - im z)%Q.
(** Multiplication, polynomial_holo.py:117-122. *)
Definition cmul (z w : cplx) : cplx := (re z * re w - im z * im w, re z * im w + im z * re w)%Q.
(** temp / k, polynomial_holo.py:123. *)
Definition cdivn (z : cplx) (n : nat) : cplx :=
  (re z / inject_Z (Z.of_nat n), im z / inject_Z (Z.of_nat n))%Q.
(** polynomial_holo.py:117. *)
Definition c0 : cplx := (0, 0)%Q.
(** polynomial_holo.py:115. *)
Definition c1 : cplx := (1, 0)%Q.

(** polynomial_holo.py:107-131, on complex numbers. *)
Definition coefficients_cplx : list cplx -> list cplx :=
  coefficientsFromMoments c0 c1 cadd cmul copp cdivn.

(** classical_polynomial.py:32-34: two roots are identified when both coordinates differ
    by less than the tolerance. *)
Definition same_root (precision : Z * Z) (a b : cplx) : bool :=
  Qltb (Qabs (re a - re b)) (pow10 (- fst precision)) &&
  Qltb (Qabs (im a - im b)) (pow10 (- snd precision)).

(** classical_polynomial.py:30-41: put one root into the first matching group. *)
Fixpoint group_insert (precision : Z * Z) (a : cplx) (groups : list root) : list root :=
  match groups with
  | [] => [(a, 1)]
  | (b, o) :: groups' =>
      if same_root precision a b then (b, o + 1) :: groups'
      else (b, o) :: group_insert precision a groups'
  end.

(** classical_polynomial.py:22-43, [getRootsWithOrders] after numpy's root computation. *)
Definition group_roots (precision : Z * Z) (roots : list cplx) : list root :=
  fold_left (fun gs a => group_insert precision a gs) roots [].
