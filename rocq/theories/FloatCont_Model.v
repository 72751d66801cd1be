(** * Floating point: the rounding container with [round] on doubles

    Container_Model keeps [round(x, p)] as an exact decimal.  Here it is the double that
    Python's float and numpy's float64 return. *)
From Verif Require Import PyBase Rounding_Model Container_Model Float_Model.
Open Scope Z_scope.

(** CPython's [float.__round__(ndigits)] (Objects/floatobject.c, double_round): correctly
    rounded decimal, half to even, converted to the nearest double. Code: rounding_container.py:151. *)
Definition py_round (n : Z) (x : Q) : Q := rnd64 (round_dec n x).

(** numpy's [float64.__round__(ndigits)] (np.round) for 0 <= n <= 22: multiply by 10^n (an
    exact double), round to the nearest integer, divide by 10^n. Code: rounding_container.py:151 when the root holds numpy floats. *)
Definition np_round (n : Z) (x : Q) : Q :=
  rnd64 (inject_Z (round_half_even (rnd64 (x * pow10 n))) / pow10 n).

Section FloatContainer.
  (** [rd n x] is [round(x, n)]. *)
  Variable rd : Z -> Q -> Q.

  (** rounding_container.py:141-151, [roundRoot]. *)
  Definition froundRoot (r : root) (precision : Z * Z) : root :=
    ((rd (fst precision) (re (fst r)), rd (snd precision) (im (fst r))), snd r).

  (** rounding_container.py:50-87, [addRoot]. *)
  Definition frc_add (info : bool) (r : root) (ctx : fctx) (c : rcont) : rcont * res unit :=
    match run_filters (rc_filters c) r ctx with
    | Err e => (c, Err e)
    | Ok false => (c, Ok tt)
    | Ok true =>
        let c1 :=
          if negb (prec_eqb (fc_precision ctx) (rc_precision c))
          then let c0 := rc_clear c in
               mkRC (fc_precision ctx) (rc_set c0) (rc_filters c0)
          else c in
        let rounded := froundRoot r (rc_precision c1) in
        if info && set_mem rounded (rc_set c1) then (c1, Ok tt)
        else (mkRC (rc_precision c1) (set_add rounded (rc_set c1)) (rc_filters c1), Ok tt)
    end.

  (** rounding_container.py:89-112, [removeRoot]. *)
  Definition frc_remove (r : root) (c : rcont) : rcont * bool :=
    let k := froundRoot r (rc_precision c) in
    if set_mem k (rc_set c)
    then (mkRC (rc_precision c) (set_remove k (rc_set c)) (rc_filters c), true)
    else (c, false).

  (** The other operations are those of Container_Model. Code: rounding_container.py:50-172. *)
  Definition frc_step (c : rcont) (o : rc_op) : rcont :=
    match o with
    | RAdd info r ctx => fst (frc_add info r ctx c)
    | RRemove r => fst (frc_remove r c)
    | RClear => rc_clear c
    | RRegister p k => rc_register p k c
    | RUnregister k => rc_unregister k c
    end.
  (** A history of calls, rounding_container.py:50-172. *)
  Definition frc_run (h : list rc_op) (c : rcont) : rcont := fold_left frc_step h c.
End FloatContainer.
