(** * Rounding: Python's [round(x, p)] on exact rationals

    Used by utils/containers/rounding_container.py:150-151 ([roundRoot]) and, with
    p = 0, by algorithms/simple_holo.py:236 and algorithms/polynomial_holo.py:73. *)
From Verif Require Import PyBase.

(** Python's [round(x)]: nearest integer, ties to the even one.
    (CPython float.__round__ with ndigits=None is exactly this.) Code: simple_holo.py:236, polynomial_holo.py:73. *)
Definition round_half_even (x : Q) : Z :=
  let n := Qfloor x in
  let d := (x - inject_Z n)%Q in
  if Qltb d (1 # 2) then n
  else if Qltb (1 # 2) d then n + 1
  else if Z.even n then n else n + 1.

(** Python's [round(x, p)] for a float x: nearest multiple of 10^-p, ties to even.
    Simplification: CPython then converts the decimal result to the nearest
    double; here the decimal result is kept exactly, in lowest terms, so that
    numerically equal results are equal terms. Code: rounding_container.py:151. *)
Definition round_dec (p : Z) (x : Q) : Q :=
  Qred (inject_Z (round_half_even (x * pow10 p)) * pow10 (- p)).

(** utils/containers/rounding_container.py:141-151, [roundRoot]. *)
Definition roundRoot (r : root) (precision : Z * Z) : root :=
  ((round_dec (fst precision) (re (fst r)),
    round_dec (snd precision) (im (fst r))), snd r).
