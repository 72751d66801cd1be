(** * Floating point: the widened domain (rootfinders/rootfinder.py) and the job grid
    (rootfinders/parallel_finder.py).

    The functions of Finder_Model with a rounding function [rnd] applied after every
    arithmetic operation.  [tx], [ty] are the values of [10 ** (-1 * precision[i])]. *)
From Verif Require Import PyBase Container_Model Finder_Model.
Open Scope Z_scope.

Section GridFloat.
  Variable rnd : Q -> Q.

  (** rootfinder.py:210-241, [desymmetrizeDomain]. *)
  Definition fdesymmetrizeDomain (tx ty : Q) (reRan imRan : Q * Q) : (Q * Q) * (Q * Q) :=
    let (x1, x2) := sorted2 reRan in
    let (y1, y2) := sorted2 imRan in
    ((rnd (x1 - rnd (1 * tx)), rnd (x2 + rnd (2 * tx))),
     (rnd (y1 - rnd (3 * ty)), rnd (y2 + rnd (4 * ty))))%Q.

  (** numpy.linspace(a, b, n + 1), n >= 1 (numpy/core/function_base.py): [arange] times the
      step, plus the start, the last entry overwritten by the stop; if the step underflows
      to 0 the numbers i/n are scaled by the length instead. *)
  Definition flinspace_pt (a b : Q) (n : nat) (i : nat) : Q :=
    if Nat.eqb i n then b
    else
      let delta := rnd (b - a) in
      let div := inject_Z (Z.of_nat n) in
      let step := rnd (delta / div) in
      let k := inject_Z (Z.of_nat i) in
      if Qeq_bool step 0 then rnd (rnd (rnd (k / div) * delta) + a)
      else rnd (rnd (k * step) + a).
  (** numpy.linspace, newton_grid.py:55-66. *)
  Definition flinspace (a b : Q) (n : nat) : list Q := map (flinspace_pt a b n) (seq 0 (S n)).

  (** parallel_finder.py:171-218, [createRootJobs]. *)
  Definition fcreateRootJobs (numProcesses : nat) (x : rctx) : list rctx :=
    let realPts := flinspace (fst (cx_reRan x)) (snd (cx_reRan x)) numProcesses in
    let imagPts := flinspace (fst (cx_imRan x)) (snd (cx_imRan x)) numProcesses in
    flat_map (fun i =>
      map (fun j =>
        mkRctx (cx_f x) (cx_df x) (cx_precision x)
          (nth i realPts 0, nth (i + 1) realPts 0)%Q
          (nth j imagPts 0, nth (j + 1) imagPts 0)%Q)
        (seq 0 (List.length imagPts - 1)))
      (seq 0 (List.length realPts - 1)).
End GridFloat.
