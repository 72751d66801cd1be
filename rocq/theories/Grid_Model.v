(** * Newton on a grid: algorithms/newton_grid.py *)
From Verif Require Import PyBase Finder_Model Refine_Model.
Open Scope Z_scope.

(** numpy.linspace(a, b, m) with m points, in exact arithmetic. Code: newton_grid.py:55-66. *)
Definition linspace_m (a b : Q) (m : nat) : list Q :=
  match m with O => [] | S n => linspace a b n end.

(** newton_grid.py:55-67: [x + y * 1j for (x, y) in product(rePoints, imPoints)]. *)
Definition grid_points (m : nat) (r : rect) : list cplx :=
  flat_map (fun x => map (fun y => (x, y)) (linspace_m (y1 r) (y2 r) m)) (linspace_m (x1 r) (x2 r) m).

(** scipy.optimize.newton on an array of start points: [vec] gives, per entry, the last
    iterate and whether the iteration converged there; RuntimeError is raised only if no
    entry converged (otherwise a warning, silenced at newton_grid.py:68). *)
Definition scipy_newton (vec : list cplx -> list (cplx * bool)) (pts : list cplx) : res (list cplx) :=
  let rs := vec pts in
  if forallb (fun r => negb (snd r)) rs then Err RuntimeError else Ok (map fst rs).

(** newton_grid.py:44-84, [NewtonGridAlgorithm.calcRoots].  [progress] says whether
    context.progress is set; [task] is context.task, whose truth value (non-zero) guards the
    progress update. *)
Definition grid_calcRoots (newton : list cplx -> res (list cplx)) (m : nat) (r : rect)
    (progress : bool) (task : option Z) : list event * outcome unit :=
  match newton (grid_points m r) with
  | Err e => ([], if catches_RuntimeError e then Done tt else Raised e)
  | Ok roots =>
      (map (fun z => EvRoot (z, 0)) roots ++
       (if progress && match task with Some t => negb (t =? 0) | None => false end
        then [EvAdvance ((x2 r - x1 r) * (y2 r - y1 r))%Q] else []),
       Done tt)
  end.
