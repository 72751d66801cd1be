(** * Whole searches with Newton's method on a grid: finder, algorithm and container together *)
From Verif Require Import PyBase Rounding_Model Container_Model Finder_Model Refine_Model Refine_Spec Grid_Model EndToEnd_Model.
Open Scope Z_scope.

(** newton_grid.py:44-84, [NewtonGridAlgorithm.calcRoots] as seen from a finder
    (rootfinder.py:157): the roots reported to the container in order and how the call
    ended.  [newton f df points] is sp.optimize.newton(context.f, points, context.df) of
    newton_grid.py:70; it is an oracle.  [m] is numSamplePoints, [info] the log level at each
    report. *)
Definition grid_algorithm (newton : holoFunc -> option holoFunc -> list cplx -> res (list cplx))
    (m : nat) (progress : bool) (task : option Z) (info : root -> bool) : rctx -> alg_run :=
  fun x =>
    let '(l, o) := grid_calcRoots (newton (cx_f x) (cx_df x)) m (rect_of x) progress task in
    mkRun (map (fun r => (info r, r)) (roots_of l))
      (match o with
       | Done _ => None
       | Raised e => Some e
       | OutOfFuel => Some RecursionError
       end).

(** parallel_finder.py:136-144, 203-218, 220-229: a job runs the algorithm on its own cell, with
    a plain container around the shared queue.  The result: what the job puts into the queue, and
    how it ends.  The algorithm has no state, so the jobs of one chunk do not influence each other
    except through an exception. *)
Definition grid_worker (newton : holoFunc -> option holoFunc -> list cplx -> res (list cplx))
    (m : nat) (progress : bool) (task : option Z) (x : rctx) : list root * option exn :=
  let run := grid_algorithm newton m progress task (fun _ => false) x in
  (map snd (ar_reports run), ar_end run).
