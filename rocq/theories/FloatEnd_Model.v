(** * A whole search in floating point: finder, argument algorithm and container together

    Float_Model (refinement), FloatGrid_Model (domain and jobs) and FloatCont_Model (rounding
    container) composed the way rootfinder.py and parallel_finder.py do.  [rnd] rounds after
    every arithmetic operation, [rd n x] is [round(x, n)] of the numbers reported, [tx], [ty]
    are the floats [10 ** (-1 * precision[i])]. *)
From Verif Require Import PyBase Rounding_Model Container_Model Finder_Model Refine_Model Refine_Spec EndToEnd_Model
  Float_Model FloatGrid_Model FloatCont_Model.
Open Scope Z_scope.

Section FloatSearch.
  Variable rnd : Q -> Q.
  Variable rd : Z -> Q -> Q.
  Variables tx ty : Q.

  (** rootfinder.py:127-157, the context of the search (serial_context of Finder_Model). *)
  Definition fserial_context (f : holoFunc) (df : option holoFunc) (dflt : Z * Z)
      (reRan imRan : Q * Q) (precision : option (Z * Z)) : rctx :=
    let p := search_precision dflt precision in
    let dom := fdesymmetrizeDomain rnd tx ty reRan imRan in
    mkRctx f df p (fst dom) (snd dom).

  (** simple_holo.py:76-110 as seen from a finder (argument_algorithm of EndToEnd_Model). *)
  Definition fargument_algorithm {S} (E : env S) (v : variant) (depth : nat) (info : root -> bool)
      (s : S) : rctx -> alg_run :=
    fun x =>
      let '(_, l, o) := fcalcRoots rnd tx ty (env_for E x) v depth (rect_of x) s in
      mkRun (map (fun r => (info r, r)) (roots_of l))
        (match o with
         | Done _ => None
         | Raised e => Some e
         | OutOfFuel => Some RecursionError
         end).

  (** Feed the reports into the container (feed of Finder_Model). Code: simple_holo.py:237, rounding_container.py:50-87. *)
  Fixpoint ffeed (ctx : fctx) (l : list (bool * root)) (c : rcont) : rcont * res unit :=
    match l with
    | [] => (c, Ok tt)
    | (info, r) :: l' =>
        match frc_add rd info r ctx c with
        | (c', Ok _) => ffeed ctx l' c'
        | (c', Err e) => (c', Err e)
        end
    end.

  (** rootfinder.py:112-170, [RootFinder.calculateRoots]. *)
  Definition fcalculateRoots (f : holoFunc) (df : option holoFunc) (dflt : Z * Z)
      (alg : rctx -> alg_run)
      (reRan imRan : Q * Q) (precision : option (Z * Z)) (c : rcont) : rcont * res unit :=
    let ctx := fserial_context f df dflt reRan imRan precision in
    let run := alg ctx in
    match ffeed (toFilterContext ctx) (ar_reports run) c with
    | (c', Err KeyboardInterrupt) => (c', Ok tt)
    | (c', Err e) => (c', Err e)
    | (c', Ok _) =>
        match ar_end run with
        | None => (c', Ok tt)
        | Some KeyboardInterrupt => (c', Ok tt)
        | Some e => (c', Err e)
        end
    end.

  (** parallel_finder.py:136-144, 220-229: what job [x] puts into the queue, and how it ends. *)
  Definition fworker_output {S} (E : env S) (v : variant) (depth : nat) (s : S) (x : rctx)
    : list root * option exn :=
    let run := fargument_algorithm E v depth (fun _ => false) s x in
    (map snd (ar_reports run), ar_end run).

  (** The [FilterContext] of parallel_finder.py:163-167. *)
  Definition fdrain_context (f : holoFunc) (dflt : Z * Z) (reRan imRan : Q * Q)
      (precision : option (Z * Z)) : fctx :=
    let p := search_precision dflt precision in
    let dom := fdesymmetrizeDomain rnd tx ty reRan imRan in
    mkFctx f (fst dom) (snd dom) (fst p - 1, snd p - 1) 3.

  (** parallel_finder.py:92-169, [ParallelRootFinder.calculateRoots]. *)
  Definition fparallel_calculateRoots (f : holoFunc) (dflt : Z * Z)
      (reRan imRan : Q * Q) (precision : option (Z * Z)) (info : bool)
      (pool : pool_end) (c : rcont) : rcont * res unit :=
    let ctx := fdrain_context f dflt reRan imRan precision in
    match pool with
    | PoolRaised e => (c, Err e)
    | PoolDone q => ffeed ctx (map (fun r => (info, r)) q) c
    | PoolInterrupted q => ffeed ctx (map (fun r => (info, r)) q) c
    end.
End FloatSearch.
