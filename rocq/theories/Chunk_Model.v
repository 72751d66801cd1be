(** * The worker pool of the parallel finder: chunks of jobs *)
From Verif Require Import PyBase Finder_Model Refine_Model EndToEnd_Model.
Open Scope Z_scope.

(** parallel_finder.py:140-144 calls [pool.starmap] with an explicit chunk size;
    [multiprocessing.pool.Pool._get_tasks] cuts the argument list into successive slices of
    that size.  [k] bounds the number of slices, [size] is positive. *)
Fixpoint tasks_upto {A} (k size : nat) (l : list A) : list (list A) :=
  match k, l with
  | S k', _ :: _ => firstn size l :: tasks_upto k' size (skipn size l)
  | _, _ => []
  end.
(** [Pool._get_tasks] as called by starmap, parallel_finder.py:140-144. *)
Definition get_tasks {A} (size : nat) (l : list A) : list (list A) := tasks_upto (List.length l) size l.

(** The state of the estimator when the job [x] has ended, normally or not. Code: parallel_finder.py:220-229. *)
Definition job_leaves {S} (E : env S) (v : variant) (depth : nat) (x : rctx) (s : S) : S :=
  fst (fst (calcRoots (env_for E x) v depth (rect_of x) s)).

(** [multiprocessing.pool.starmapstar] on one task: the bound method [rootWorker]
    (parallel_finder.py:220-229) was pickled once for the task, so its jobs share one copy of
    the finder and hence of the estimator; they run one after the other, and the first
    exception ends the task.  The result: what the task puts into the queue, and how it
    ends. *)
Fixpoint run_chunk {S} (E : env S) (v : variant) (depth : nat) (s : S) (jobs : list rctx)
  : list root * option exn :=
  match jobs with
  | [] => ([], None)
  | x :: rest =>
      let o := worker_output E v depth s x in
      match snd o with
      | Some e => (fst o, Some e)
      | None =>
          let o' := run_chunk E v depth (job_leaves E v depth x s) rest in
          (fst o ++ fst o', snd o')
      end
  end.

(** parallel_finder.py:126-144: [m] = [cpu_count() or 1] is the number of pieces per
    direction as well as the chunk size; [s] is the state of the finder's own estimator,
    which never searches itself and is only copied. *)
Definition pool_outputs {S} (E : env S) (v : variant) (depth : nat) (s : S) (m : nat) (x : rctx)
  : list (list root * option exn) :=
  map (run_chunk E v depth s) (get_tasks m (createRootJobs m x)).
