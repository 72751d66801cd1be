(** * Numbers that are not finite in the containers: utils/containers/*.py,
    utils/factories/container_factory.py, algorithms/newton_grid.py

    The other models take all numbers to be rational.  A Newton iteration that leaves the
    domain of f, divides by zero or overflows ends at nan or an infinity
    (numpy only warns), and newton_grid.py:73-76 stores every final iterate.  Here the container is modelled once more over
    Python's floats including these values.  (Rounding of finite values stays exact, as in
    Rounding_Model.v; finite values are never so large that rounding them overflows.) *)
From Verif Require Import PyBase Rounding_Model Container_Model.
Open Scope list_scope.

(** A float: the coordinates stored at rounding_container.py:87, the numbers compared at container_factory.py:50-68. *)
Inductive num : Type := Fin (q : Q) | PInf | NInf | NaN.

(** Python's and numpy's [==], [<=] and [<] on floats: any comparison with nan is false. Code: rounding_container.py:79, 87, 97; container_factory.py:50-68. *)
Definition num_eqb (a b : num) : bool :=
  match a, b with
  | Fin x, Fin y => Qeq_bool x y
  | PInf, PInf | NInf, NInf => true
  | _, _ => false
  end.
(** <=, container_factory.py:66-67. *)
Definition num_leb (a b : num) : bool :=
  match a, b with
  | NaN, _ | _, NaN => false
  | NInf, _ | _, PInf => true
  | Fin x, Fin y => Qle_bool x y
  | _, _ => false
  end.
(** <, container_factory.py:50-54. *)
Definition num_ltb (a b : num) : bool :=
  match a, b with
  | NaN, _ | _, NaN => false
  | Fin x, Fin y => Qltb x y
  | NInf, NInf | PInf, PInf => false
  | NInf, _ | _, PInf => true
  | _, _ => false
  end.

(** Complex numbers, and roots with their orders. Code: pyzeal_types/root_types.py:24. *)
Definition xcplx : Type := (num * num)%type.
(** pyzeal_types/root_types.py:24. *)
Definition xroot : Type := (xcplx * Z)%type.

(** utils/filter_context.py:16-31 over these numbers. *)
Record xctx : Type := mkXctx {
  xc_f : xcplx -> res xcplx;
  xc_reRan : num * num;
  xc_imRan : num * num;
  xc_precision : Z * Z
}.
(** utils/filter_context.py:31. *)
Definition xfilter : Type := xroot -> xctx -> res bool.

(** rounding_container.py:141-151, [roundRoot]: [round(nan, p)] is nan and [round(inf, p)] is inf,
    for Python's floats as well as for numpy's. *)
Definition round_num (p : Z) (x : num) : num :=
  match x with Fin q => Fin (round_dec p q) | _ => x end.
(** rounding_container.py:141-151. *)
Definition xround (p : Z * Z) (r : xroot) : xroot :=
  ((round_num (fst p) (fst (fst r)), round_num (snd p) (snd (fst r))), snd r).

(** The set of (complex, int) tuples.  Every tuple that is added, looked up or removed is freshly made
    by [roundRoot], so that Python compares its number by value; a number with a nan
    part is then different from everything. Code: rounding_container.py:79, 87, 97. *)
Definition xroot_eqb (r s : xroot) : bool :=
  num_eqb (fst (fst r)) (fst (fst s)) && num_eqb (snd (fst r)) (snd (fst s)) && (snd r =? snd s)%Z.
(** in, rounding_container.py:79. *)
Definition xset_mem (r : xroot) (s : list xroot) : bool := existsb (xroot_eqb r) s.
(** set.add, rounding_container.py:87. *)
Definition xset_add (r : xroot) (s : list xroot) : list xroot := if xset_mem r s then s else s ++ [r].
(** set.remove, rounding_container.py:97-99. *)
Definition xset_remove (r : xroot) (s : list xroot) : list xroot := filter (fun x => negb (xroot_eqb r x)) s.

(** rounding_container.py:36-48. *)
Record xcont : Type := mkXC {
  xs_precision : Z * Z;
  xs_set : list xroot;
  xs_filters : list (string * xfilter)
}.
(** rounding_container.py:137-139, [clear]. *)
Definition xs_clear (c : xcont) : xcont := mkXC (xs_precision c) [] (xs_filters c).
(** rounding_container.py:59-66. *)
Fixpoint xrun_filters (fs : list (string * xfilter)) (r : xroot) (ctx : xctx) : res bool :=
  match fs with
  | [] => Ok true
  | (_, p) :: fs' =>
      match p r ctx with
      | Err e => Err e
      | Ok false => Ok false
      | Ok true => xrun_filters fs' r ctx
      end
  end.
(** rounding_container.py:50-87, [addRoot]. *)
Definition xs_add (info : bool) (r : xroot) (ctx : xctx) (c : xcont) : xcont * res unit :=
  match xrun_filters (xs_filters c) r ctx with
  | Err e => (c, Err e)
  | Ok false => (c, Ok tt)
  | Ok true =>
      let c1 :=
        if negb (prec_eqb (xc_precision ctx) (xs_precision c))
        then let c0 := xs_clear c in mkXC (xc_precision ctx) (xs_set c0) (xs_filters c0)
        else c in
      let rounded := xround (xs_precision c1) r in
      if info && xset_mem rounded (xs_set c1) then (c1, Ok tt)
      else (mkXC (xs_precision c1) (xset_add rounded (xs_set c1)) (xs_filters c1), Ok tt)
  end.
(** rounding_container.py:89-112, [removeRoot]. *)
Definition xs_remove (r : xroot) (c : xcont) : xcont * bool :=
  let k := xround (xs_precision c) r in
  if xset_mem k (xs_set c)
  then (mkXC (xs_precision c) (xset_remove k (xs_set c)) (xs_filters c), true)
  else (c, false).
(** rounding_container.py:153-172. *)
Definition xs_register (p : xfilter) (key : string) (c : xcont) : xcont :=
  mkXC (xs_precision c) (xs_set c) (dset String.eqb key p (xs_filters c)).
(** rounding_container.py:162-172. *)
Definition xs_unregister (key : string) (c : xcont) : xcont :=
  mkXC (xs_precision c) (xs_set c) (ddel String.eqb key (xs_filters c)).

(** One API call on a RoundingContainer, and the state after a history of calls. Code: rounding_container.py:50-172. *)
Inductive xop : Type :=
| XAdd (info : bool) (r : xroot) (ctx : xctx)
| XRemove (r : xroot)
| XClear
| XRegister (p : xfilter) (key : string)
| XUnregister (key : string).
(** The state after one call, rounding_container.py:50-172. *)
Definition xs_step (c : xcont) (o : xop) : xcont :=
  match o with
  | XAdd info r ctx => fst (xs_add info r ctx c)
  | XRemove r => fst (xs_remove r c)
  | XClear => xs_clear c
  | XRegister p k => xs_register p k c
  | XUnregister k => xs_unregister k c
  end.
(** The state after a history of calls, rounding_container.py:50-172. *)
Definition xs_run (h : list xop) (c : xcont) : xcont := fold_left xs_step h c.

(** container_factory.py:36-54, [_func_value_zero]: numpy's abs of a complex number with a
    non-finite part is inf or nan, and neither is below 10 ** (-threshold). *)
Definition xabs_lt (w : xcplx) (t : Z) : bool :=
  match w with (Fin x, Fin y) => abs_lt_pow10 (x, y) t | _ => false end.
(** container_factory.py:36-54. *)
Definition xfunc_value_zero (threshold : Z) : xfilter :=
  fun r ctx => bind (xc_f ctx (fst r)) (fun w => Ok (xabs_lt w threshold)).
(** container_factory.py:56-68, [_zero_in_bounds]. *)
Definition xzero_in_bounds : xfilter :=
  fun r ctx =>
    Ok ((num_leb (fst (xc_reRan ctx)) (fst (fst r)) && num_leb (fst (fst r)) (snd (xc_reRan ctx)))
        && (num_leb (fst (xc_imRan ctx)) (snd (fst r)) && num_leb (snd (fst r)) (snd (xc_imRan ctx)))).

(** newton_grid.py:44-84 followed by the container: [roots] is what scipy's newton returned (an
    array) or the exception it raised; RuntimeError is swallowed, every iterate is added with order
    0; an exception raised by a filter ends the loop. *)
Fixpoint add_iterates (info : bool) (roots : list xcplx) (ctx : xctx) (c : xcont) : xcont * res unit :=
  match roots with
  | [] => (c, Ok tt)
  | z :: zs =>
      match xs_add info (z, 0%Z) ctx c with
      | (c1, Ok _) => add_iterates info zs ctx c1
      | (c1, Err e) => (c1, Err e)
      end
  end.
(** newton_grid.py:44-84. *)
Definition xgrid_calcRoots (info : bool) (newton : res (list xcplx)) (ctx : xctx) (c : xcont) : xcont * res unit :=
  match newton with
  | Err e => (c, if catches_RuntimeError e then Ok tt else Err e)
  | Ok roots => add_iterates info roots ctx c
  end.
