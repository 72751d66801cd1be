(** * Root finders: rootfinders/rootfinder.py, rootfinders/parallel_finder.py *)
From Verif Require Import PyBase Rounding_Model Container_Model.
Open Scope Z_scope.

(** utils/root_context.py:21-35 without the container and the progress bar. *)
Record rctx : Type := mkRctx {
  cx_f : holoFunc;
  cx_df : option holoFunc;
  cx_precision : Z * Z;
  cx_reRan : Q * Q;
  cx_imRan : Q * Q
}.

(** utils/root_context.py:37-45, [toFilterContext] (threshold keeps its default 3). *)
Definition toFilterContext (x : rctx) : fctx :=
  mkFctx (cx_f x) (cx_reRan x) (cx_imRan x) (cx_precision x) 3.

(** rootfinder.py:229: [sorted] of a pair. *)
Definition sorted2 (r : Q * Q) : Q * Q :=
  if Qltb (snd r) (fst r) then (snd r, fst r) else r.

(** rootfinder.py:210-241, [desymmetrizeDomain]. *)
Definition desymmetrizeDomain (reRan imRan : Q * Q) (precision : Z * Z) : (Q * Q) * (Q * Q) :=
  let (x1, x2) := sorted2 reRan in
  let (y1, y2) := sorted2 imRan in
  let dx := pow10 (-1 * fst precision) in
  let dy := pow10 (-1 * snd precision) in
  ((x1 - 1 * dx, x2 + 2 * dx), (y1 - 3 * dy, y2 + 4 * dy))%Q.

(** What one run of [FinderAlgorithm.calcRoots] does to the container: it reports
    roots one after the other through [context.container.addRoot(root,
    context.toFilterContext())] (simple_holo.py:235-242, simple_holo_newton.py,
    polynomial_holo.py, newton_grid.py:76, argument_estimator.py:129-132) and then ends
    normally ([None]) or by an exception.  The log level may differ per call. *)
Record alg_run : Type := mkRun {
  ar_reports : list (bool * root);
  ar_end : option exn
}.

(** Feed the reports into the container.  A raising filter aborts the run. Code: algorithms call container.addRoot, e.g. simple_holo.py:237. *)
Fixpoint feed (ctx : fctx) (l : list (bool * root)) (c : rcont) : rcont * res unit :=
  match l with
  | [] => (c, Ok tt)
  | (info, r) :: l' =>
      match rc_add info r ctx c with
      | (c', Ok _) => feed ctx l' c'
      | (c', Err e) => (c', Err e)
      end
  end.

(** rootfinder.py:127-131: the effective precision of a search. *)
Definition search_precision (dflt : Z * Z) (precision : option (Z * Z)) : Z * Z :=
  let p := match precision with Some q => q | None => dflt end in
  (fst p + 1, snd p + 1).

(** rootfinder.py:112-170, [RootFinder.calculateRoots] on a finder holding a rounding
    container [c]; [alg] is the algorithm (any function of the root context).
    Progress bar calls are left out (see the refinement model for them). *)
Definition serial_context (f : holoFunc) (df : option holoFunc) (dflt : Z * Z)
    (reRan imRan : Q * Q) (precision : option (Z * Z)) : rctx :=
  let p := search_precision dflt precision in
  let dom := desymmetrizeDomain reRan imRan p in
  mkRctx f df p (fst dom) (snd dom).

(** rootfinder.py:112-170. *)
Definition calculateRoots (f : holoFunc) (df : option holoFunc) (dflt : Z * Z)
    (alg : rctx -> alg_run)
    (reRan imRan : Q * Q) (precision : option (Z * Z)) (c : rcont) : rcont * res unit :=
  let ctx := serial_context f df dflt reRan imRan precision in
  let run := alg ctx in
  match feed (toFilterContext ctx) (ar_reports run) c with
  | (c', Err KeyboardInterrupt) => (c', Ok tt)      (* rootfinder.py:160-167 *)
  | (c', Err e) => (c', Err e)
  | (c', Ok _) =>
      match ar_end run with
      | None => (c', Ok tt)
      | Some KeyboardInterrupt => (c', Ok tt)
      | Some e => (c', Err e)
      end
  end.

(** ** Parallel finder *)

(** numpy.linspace(a, b, n + 1) for n >= 1, in exact arithmetic. Code: parallel_finder.py:198-199. *)
Definition linspace_pt (a b : Q) (n : nat) (i : nat) : Q :=
  (a + inject_Z (Z.of_nat i) * ((b - a) / inject_Z (Z.of_nat n)))%Q.
(** parallel_finder.py:198-199, newton_grid.py:55-66. *)
Definition linspace (a b : Q) (n : nat) : list Q := map (linspace_pt a b n) (seq 0 (S n)).

(** parallel_finder.py:171-218, [createRootJobs]: row-major list of cells. *)
Definition createRootJobs (numProcesses : nat) (x : rctx) : list rctx :=
  let realPts := linspace (fst (cx_reRan x)) (snd (cx_reRan x)) numProcesses in
  let imagPts := linspace (fst (cx_imRan x)) (snd (cx_imRan x)) numProcesses in
  flat_map (fun i =>
    map (fun j =>
      mkRctx (cx_f x) (cx_df x) (cx_precision x)
        (nth i realPts 0, nth (i + 1) realPts 0)%Q
        (nth j imagPts 0, nth (j + 1) imagPts 0)%Q)
      (seq 0 (List.length imagPts - 1)))
    (seq 0 (List.length realPts - 1)).

(** What the worker pool leaves behind: the content of the shared queue, and whether
    [pool.starmap] returned, was interrupted, or re-raised a worker's exception. Code: parallel_finder.py:136-157. *)
Inductive pool_end : Type :=
| PoolDone (queue : list root)
| PoolInterrupted (queue : list root)
| PoolRaised (e : exn).

(** parallel_finder.py:161-168: drain the queue with precision p (not p+1). *)
Definition drain (ctx : fctx) (info : bool) (q : list root) (c : rcont) : rcont * res unit :=
  feed ctx (map (fun r => (info, r)) q) c.

(** The [FilterContext] of parallel_finder.py:163-167. *)
Definition drain_context (f : holoFunc) (dflt : Z * Z) (reRan imRan : Q * Q)
    (precision : option (Z * Z)) : fctx :=
  let p := search_precision dflt precision in
  let dom := desymmetrizeDomain reRan imRan p in
  mkFctx f (fst dom) (snd dom) (fst p - 1, snd p - 1) 3.

(** parallel_finder.py:92-169, [ParallelRootFinder.calculateRoots]. *)
Definition parallel_calculateRoots (f : holoFunc) (dflt : Z * Z)
    (reRan imRan : Q * Q) (precision : option (Z * Z)) (info : bool)
    (pool : pool_end) (c : rcont) : rcont * res unit :=
  let ctx := drain_context f dflt reRan imRan precision in
  match pool with
  | PoolRaised e => (c, Err e)
  | PoolDone q => drain ctx info q c
  | PoolInterrupted q => drain ctx info q c
  end.

(** parallel_finder.py:62-66: the sample budget handed to the algorithm;
    [int(n / c) + 1] truncates towards zero. *)
Definition parallel_numSamplePoints (numSamplePoints : option Z) (cpu : Z) : option Z :=
  match numSamplePoints with
  | None => None
  | Some n => if n =? 0 then None else Some (Z.quot n cpu + 1)
  end.

(** utils/factories/algorithm_factory.py:58-60 with algorithms/newton_grid.py:34:
    a missing or zero budget means 50 points per axis. *)
Definition newton_grid_points (numSamplePoints : option Z) : Z :=
  match numSamplePoints with
  | None => 50
  | Some n => if n =? 0 then 50 else n
  end.
