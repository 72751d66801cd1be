(** * Root containers: utils/containers/*.py and the filters of
    utils/factories/container_factory.py *)
From Verif Require Import PyBase Rounding_Model.

(** User supplied functions: they return a value or raise. Code: pyzeal_types/root_types.py:20. *)
Definition holoFunc : Type := cplx -> res cplx.

(** utils/filter_context.py:16-27.  [threshold] defaults to 3 and is read nowhere. *)
Record fctx : Type := mkFctx {
  fc_f : holoFunc;
  fc_reRan : Q * Q;
  fc_imRan : Q * Q;
  fc_precision : Z * Z;
  fc_threshold : Z
}.

(** utils/filter_context.py:31, [tRootFilter]; the predicate may raise. Predicates
    with side effects on the container are not modelled. *)
Definition rootFilter : Type := root -> fctx -> res bool.

(** == of (complex, int) tuples, pyzeal_types/root_types.py:24. *)
Definition root_eqb (r s : root) : bool := ceqb (fst r) (fst s) && (snd r =? snd s).

(** The Python set of (complex, int) tuples: a list without duplicates; tuples are
    compared by value.  Iteration order is a parameter of the getters below. Code: rounding_container.py:46, 79. *)
Definition set_mem (r : root) (s : list root) : bool := existsb (root_eqb r) s.
(** set.add, rounding_container.py:87. *)
Definition set_add (r : root) (s : list root) : list root :=
  if set_mem r s then s else s ++ [r].
(** set.remove, rounding_container.py:97-99. *)
Definition set_remove (r : root) (s : list root) : list root :=
  filter (fun x => negb (root_eqb r x)) s.

(** ** RoundingContainer, utils/containers/rounding_container.py *)
Record rcont : Type := mkRC {
  rc_precision : Z * Z;
  rc_set : list root;
  rc_filters : list (string * rootFilter)
}.

(** rounding_container.py:36-48, [__init__]; [settingsPrecision] is
    [ServiceLocator.tryResolve(SettingsService).precision], used when the argument
    is None (a non-empty tuple is never falsy). *)
Definition rc_init (precision : option (Z * Z)) (settingsPrecision : Z * Z) : rcont :=
  mkRC (match precision with Some p => p | None => settingsPrecision end) [] [].

(** The comparison of precisions, rounding_container.py:67. *)
Definition prec_eqb (p q : Z * Z) : bool := (fst p =? fst q) && (snd p =? snd q).

(** rounding_container.py:137-139, [clear]. *)
Definition rc_clear (c : rcont) : rcont := mkRC (rc_precision c) [] (rc_filters c).

(** rounding_container.py:59-66: the filters are tried in dict order until one
    rejects (or raises). *)
Fixpoint run_filters (fs : list (string * rootFilter)) (r : root) (ctx : fctx) : res bool :=
  match fs with
  | [] => Ok true
  | (_, p) :: fs' =>
      match p r ctx with
      | Err e => Err e
      | Ok false => Ok false
      | Ok true => run_filters fs' r ctx
      end
  end.

(** rounding_container.py:50-87, [addRoot]. [info] is
    [self.logger.isEnabledFor(INFO)] at the time of the call. *)
Definition rc_add (info : bool) (r : root) (ctx : fctx) (c : rcont) : rcont * res unit :=
  match run_filters (rc_filters c) r ctx with
  | Err e => (c, Err e)
  | Ok false => (c, Ok tt)
  | Ok true =>
      let c1 :=
        if negb (prec_eqb (fc_precision ctx) (rc_precision c))
        then let c0 := rc_clear c in
             mkRC (fc_precision ctx) (rc_set c0) (rc_filters c0)
        else c in
      let rounded := roundRoot r (rc_precision c1) in
      if info && set_mem rounded (rc_set c1) then (c1, Ok tt)
      else (mkRC (rc_precision c1) (set_add rounded (rc_set c1)) (rc_filters c1), Ok tt)
  end.

(** rounding_container.py:89-112, [removeRoot] (set.remove raises KeyError, which is
    caught and turned into False). *)
Definition rc_remove (r : root) (c : rcont) : rcont * bool :=
  let k := roundRoot r (rc_precision c) in
  if set_mem k (rc_set c)
  then (mkRC (rc_precision c) (set_remove k (rc_set c)) (rc_filters c), true)
  else (c, false).

(** rounding_container.py:114-123, [getRoots]; 125-135, [getRootOrders].  [iter] is
    the iteration order of the set object; the set is not modified between the two
    calls, so both see the same order. *)
Definition rc_getRoots (iter : list root -> list root) (c : rcont) : list cplx :=
  map fst (iter (rc_set c)).
(** rounding_container.py:125-135. *)
Definition rc_getRootOrders (iter : list root -> list root) (c : rcont) : list Z :=
  map snd (iter (rc_set c)).

(** rounding_container.py:153-160, [registerFilter]. *)
Definition rc_register (p : rootFilter) (key : string) (c : rcont) : rcont :=
  mkRC (rc_precision c) (rc_set c) (dset String.eqb key p (rc_filters c)).

(** rounding_container.py:162-172, [unregisterFilter] (an unknown key is only logged). *)
Definition rc_unregister (key : string) (c : rcont) : rcont :=
  mkRC (rc_precision c) (rc_set c) (ddel String.eqb key (rc_filters c)).

(** One API call on a RoundingContainer. Code: rounding_container.py:50-172. *)
Inductive rc_op : Type :=
| RAdd (info : bool) (r : root) (ctx : fctx)
| RRemove (r : root)
| RClear
| RRegister (p : rootFilter) (key : string)
| RUnregister (key : string).

(** The state after one of these calls, rounding_container.py:50-172. *)
Definition rc_step (c : rcont) (o : rc_op) : rcont :=
  match o with
  | RAdd info r ctx => fst (rc_add info r ctx c)
  | RRemove r => fst (rc_remove r c)
  | RClear => rc_clear c
  | RRegister p k => rc_register p k c
  | RUnregister k => rc_unregister k c
  end.

(** The state after a history of calls. Code: rounding_container.py:24-172. *)
Definition rc_run (h : list rc_op) (c : rcont) : rcont := fold_left rc_step h c.

(** ** PlainContainer, utils/containers/plain_container.py *)
Record pcont : Type := mkPC {
  pc_queue : list root;   (* rootBuffer: FIFO, oldest first *)
  pc_roots : list root    (* _roots *)
}.

(** plain_container.py:37-45, [__init__] with a queue that may already hold roots. *)
Definition pc_init (queue : list root) : pcont := mkPC queue [].
(** plain_container.py:47-59, [addRoot]: the context is ignored. *)
Definition pc_add (r : root) (ctx : fctx) (c : pcont) : pcont :=
  mkPC (pc_queue c ++ [r]) (pc_roots c).
(** plain_container.py:61-68, [removeRoot]. *)
Definition pc_remove (r : root) (c : pcont) : pcont * bool := (c, false).
(** plain_container.py:89-94, [_transferRootBuffer]: pop from the queue until empty.
    Structural on the queue: each round takes the oldest element. *)
Fixpoint pc_drain (q rs : list root) : list root :=
  match q with
  | [] => rs
  | r :: q' => pc_drain q' (rs ++ [r])
  end.
(** plain_container.py:89-94, on both attributes. *)
Definition pc_transfer (c : pcont) : pcont := mkPC [] (pc_drain (pc_queue c) (pc_roots c)).
(** plain_container.py:70-77, [getRoots]. *)
Definition pc_getRoots (c : pcont) : pcont * list cplx :=
  let c' := pc_transfer c in (c', map fst (pc_roots c')).
(** plain_container.py:79-87, [getRootOrders]. *)
Definition pc_getRootOrders (c : pcont) : pcont * list Z :=
  let c' := pc_transfer c in (c', map snd (pc_roots c')).
(** plain_container.py:96-98, 100-107, 109-115. *)
Definition pc_clear (c : pcont) : pcont * res unit := (c, Err NotImplementedError).
(** plain_container.py:100-107. *)
Definition pc_register (p : rootFilter) (k : string) (c : pcont) : pcont * res unit :=
  (c, Err NotImplementedError).
(** plain_container.py:109-115. *)
Definition pc_unregister (k : string) (c : pcont) : pcont * res unit :=
  (c, Err NotImplementedError).

(** What happens to a plain container: its own API calls, and [PPut]: another process
    holding the same queue puts a root. Code: plain_container.py:37-115. *)
Inductive pc_op : Type :=
| PAdd (r : root) (ctx : fctx)
| PPut (r : root)
| PRemove (r : root)
| PGetRoots
| PGetOrders
| PClear
| PRegister (p : rootFilter) (k : string)
| PUnregister (k : string).

(** The state after one such event, plain_container.py:37-115. *)
Definition pc_step (c : pcont) (o : pc_op) : pcont :=
  match o with
  | PAdd r ctx => pc_add r ctx c
  | PPut r => mkPC (pc_queue c ++ [r]) (pc_roots c)
  | PRemove r => fst (pc_remove r c)
  | PGetRoots => fst (pc_getRoots c)
  | PGetOrders => fst (pc_getRootOrders c)
  | PClear => fst (pc_clear c)
  | PRegister p k => fst (pc_register p k c)
  | PUnregister k => fst (pc_unregister k c)
  end.
(** The state after a history, plain_container.py:24-115. *)
Definition pc_run (h : list pc_op) (c : pcont) : pcont := fold_left pc_step h c.

(** ** Predefined filters, utils/factories/container_factory.py *)

(** |w| < 10^(-t), stated without the square root: |w|^2 < (10^(-t))^2. Code: container_factory.py:50-54. *)
Definition abs_lt_pow10 (w : cplx) (t : Z) : bool :=
  Qltb (re w * re w + im w * im w) (pow10 (- t) * pow10 (- t)).

(** container_factory.py:36-54, [_func_value_zero]. *)
Definition func_value_zero (threshold : Z) : rootFilter :=
  fun r ctx => bind (fc_f ctx (fst r)) (fun w => Ok (abs_lt_pow10 w threshold)).

(** container_factory.py:56-68, [_zero_in_bounds]. *)
Definition zero_in_bounds : rootFilter :=
  fun r ctx =>
    Ok ((Qle_bool (fst (fc_reRan ctx)) (re (fst r)) && Qle_bool (re (fst r)) (snd (fc_reRan ctx)))
        && (Qle_bool (fst (fc_imRan ctx)) (im (fst r)) && Qle_bool (im (fst r)) (snd (fc_imRan ctx)))).

(** pyzeal_types/filter_types.py:14-17: the enumeration and its string values. *)
Inductive filterType : Type := FUNCTION_VALUE_ZERO | ZERO_IN_BOUNDS.
(** pyzeal_types/filter_types.py:16-17. *)
Definition filterType_value (t : filterType) : string :=
  match t with
  | FUNCTION_VALUE_ZERO => "[function-value-zero]"%string
  | ZERO_IN_BOUNDS => "[zero-in-bounds]"%string
  end.

(** container_factory.py:113-140, [registerPreDefinedFilter]. *)
Definition registerPreDefinedFilter (t : filterType) (threshold : Z) (c : rcont) : rcont :=
  let predicate :=
    match t with
    | FUNCTION_VALUE_ZERO => func_value_zero threshold
    | ZERO_IN_BOUNDS => zero_in_bounds
    end in
  rc_register predicate (filterType_value t) c.

(** container_factory.py:152-166, [registerDefaultFilters] on a RoundingContainer
    (any other container is left alone). *)
Definition registerDefaultFilters (c : rcont) : rcont :=
  registerPreDefinedFilter ZERO_IN_BOUNDS 3
    (registerPreDefinedFilter FUNCTION_VALUE_ZERO 3 c).
