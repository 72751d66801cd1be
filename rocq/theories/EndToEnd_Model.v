(** * A whole search: finder, argument algorithm and container together *)
From Verif Require Import PyBase Rounding_Model Container_Model Finder_Model Refine_Model Refine_Spec.
Open Scope Z_scope.

(** simple_holo.py:97-100: [calcRoots] works on the ranges of its context. *)
Definition rect_of (x : rctx) : rect :=
  mkRect (fst (cx_reRan x)) (snd (cx_reRan x)) (fst (cx_imRan x)) (snd (cx_imRan x)).

(** The algorithms read [context.precision] and [context.df] (simple_holo.py:132-135,
    simple_holo_newton.py:78, polynomial_holo.py:56-57). *)
Definition env_for {S} (E : env S) (x : rctx) : env S :=
  mkEnv (e_est E) (e_rm E) (e_dirty E) (e_reset E) (e_secant E) (e_newton E) (e_polyroots E)
    (match cx_df x with Some _ => true | None => false end) (cx_precision x) (e_progress E).

(** [FinderAlgorithm.calcRoots] of the three argument based algorithms
    (simple_holo.py:76-110) as seen from a finder: the roots reported to the container in
    order and how the call ended.  [depth] bounds the recursion of [decideRefinement];
    exceeding it is Python's RecursionError.  [info] is the log level at each report. *)
Definition argument_algorithm {S} (E : env S) (v : variant) (depth : nat) (info : root -> bool)
    (s : S) : rctx -> alg_run :=
  fun x =>
    let '(_, l, o) := calcRoots (env_for E x) v depth (rect_of x) s in
    mkRun (map (fun r => (info r, r)) (roots_of l))
      (match o with
       | Done _ => None
       | Raised e => Some e
       | OutOfFuel => Some RecursionError
       end).

(** parallel_finder.py:136-144, 220-229: every job runs the algorithm of the pickled finder
    on its own cell, with a plain container around the shared queue.  [s] is the state of
    the estimator and its caches when the job starts (jobs of one chunk share a copy of the
    finder, so it may differ from job to job).  The result: what job [x] puts into the
    queue, and how it ends. *)
Definition worker_output {S} (E : env S) (v : variant) (depth : nat) (s : S) (x : rctx)
  : list root * option exn :=
  let run := argument_algorithm E v depth (fun _ => false) s x in
  (map snd (ar_reports run), ar_end run).
