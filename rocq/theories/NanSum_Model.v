(** * Functions that are undefined at some points: algorithms/estimators/sum_estimator.py, argument_estimator.py

    In Sum_Model.v and Whole_Model.v the function has a value everywhere.  Here it may return nan at some points: [f z = None]
    means that a component of context.f(z) is nan (infinite values are not modelled).  numpy then only warns: quotients
    with a nan operand have two nan components, arctan2 of them is nan, sums with nan are nan, and comparisons with nan
    are false.  The code is the same, so Sum_Model.v is used with phases that may be nan. *)
From Coq Require Import Reals Qreals.
From Verif Require Import PyBase Container_Model Refine_Model Cache_Model Sum_Model Sum_Spec Nan_Model NanRefine_Model.
Open Scope Z_scope.
Open Scope list_scope.

(** Sums and negation of phases, sum_estimator.py:153, 172, 180. *)
Definition oadd (a b : option R) : option R :=
  match a, b with Some x, Some y => Some (x + y)%R | _, _ => None end.
(** sum_estimator.py:133, 153. *)
Definition oopp (a : option R) : option R := option_map Ropp a.
(** context.f(z) == 0, argument_estimator.py:119, 139: False for nan. *)
Definition ovanishes (f : cplx -> option cR) (z : cplx) : bool :=
  match f z with Some v => vanishes (fun _ => v) z | None => false end.
(** sum_estimator.py:273-275, 306-307: nan if one of the values is. *)
Definition ophase_step (f : cplx -> option cR) (z z' : cplx) : option R :=
  match f z, f z' with Some v, Some w => Some (arctan2 (quotient w v)) | _, _ => None end.
(** abs(phi) >= self.deltaPhi, sum_estimator.py:279, 317: False for nan. *)
Definition oat_least (deltaPhi : R) (p : option R) : bool :=
  match p with Some p => at_least deltaPhi p | None => false end.
(** sum_estimator.py:297-299; never reached with nan, for which int() would raise. *)
Definition orefinement (deltaPhi : R) (idx : nat) (p : option R) : nat :=
  match p with Some p => refinement deltaPhi idx p | None => O end.

(** sum_estimator.py:80-115, [calcMomentAlongLine]. *)
Definition osum_line (f : cplx -> option cR) (deltaPhi : R) (maxPrecision : Q) (numPts : nat) (precision : Z * Z)
    (fuel : nat) (order : Z) (zStart zEnd : cplx) (st : sum_state (option R)) : sum_state (option R) * sum_result (option R) :=
  sumLine (Some 0%R) oadd oopp (ovanishes f) (ophase_step f) (oat_least deltaPhi) (orefinement deltaPhi)
    (nearer maxPrecision) numPts precision fuel order zStart zEnd st.

(** As [turn_line] of Whole_Model.v (sum_estimator.py:80-115): order 0 in turns. *)
Definition oturn_line (turns : R -> Q) (f : cplx -> option cR) (deltaPhi : R) (maxPrecision : Q) (numPts : nat)
    (precision : Z * Z) (fuel : nat) (zStart zEnd : cplx) (st : sum_state (option R))
    : sum_state (option R) * list cplx * res num :=
  match osum_line f deltaPhi maxPrecision numPts precision fuel 0 zStart zEnd st with
  | (st', SumOk found (Some p)) => (st', found, Ok (Fin (turns p)))
  | (st', SumOk found None) => (st', found, Ok NaN)
  | (st', SumErr e) => (st', [], Err e)
  | (st', SumLoops) => (st', [], Err RuntimeError)
  end.

(** phi += .., argument_estimator.py:68, 76. *)
Definition num_add (a b : num) : num :=
  match a, b with
  | Fin x, Fin y => Fin (x + y)%Q
  | NaN, _ | _, NaN | PInf, NInf | NInf, PInf => NaN
  | PInf, _ | _, PInf => PInf
  | NInf, _ | _, NInf => NInf
  end.
(** -deltaPhi, argument_estimator.py:75. *)
Definition num_opp (a : num) : num := match a with Fin x => Fin (- x)%Q | PInf => NInf | NInf => PInf | NaN => NaN end.
(** if entry := .., argument_estimator.py:67: nan is true, 0 and a missing entry are not. *)
Definition ntruthy (v : option num) : bool :=
  match v with Some (Fin q) => negb (Qeq_bool q 0) | Some _ => true | None => false end.

(** The estimator cache, estimator_cache.py:23-128, restricted to order 0, the only one the summation estimator has; the
    counters are left out. *)
Definition ncache : Type := list (ckey * num).

Section Moment.
  Context {LS : Type}.
  Variable line : cplx -> cplx -> LS -> LS * list cplx * res num.

  (** argument_estimator.py:66-76. *)
  Fixpoint nmoment_loop (es : list ckey) (phi : num) (st : ncache * LS) : (ncache * LS) * list cplx * res num :=
    match es with
    | [] => (st, [], Ok phi)
    | (zStart, zEnd) :: es' =>
        let entry := dget ckey_eqb (zStart, zEnd) (fst st) in
        if ntruthy entry then
          nmoment_loop es' (num_add phi (match entry with Some v => v | None => Fin 0 end)) st
        else
          match line zStart zEnd (snd st) with
          | (ls, zs, Err e) => ((fst st, ls), zs, Err e)
          | (ls, zs, Ok deltaPhi) =>
              let c2 := dset ckey_eqb (zEnd, zStart) (num_opp deltaPhi) (dset ckey_eqb (zStart, zEnd) deltaPhi (fst st)) in
              let '(st', zs', v) := nmoment_loop es' (num_add phi deltaPhi) (c2, ls) in
              (st', zs ++ zs', v)
          end
    end.

  (** argument_estimator.py:27-79, [calcMoment] for order 0; the imaginary part stays 0. *)
  Definition nphase (r : rect) (st : ncache * LS) : (ncache * LS) * list cplx * res xcplx :=
    match nmoment_loop (edges r) (Fin 0) st with
    | (st', zs, Ok phi) => (st', zs, Ok (phi, Fin 0))
    | (st', zs, Err e) => (st', zs, Err e)
    end.

  (** The environment of a search whose estimator has no moments of order 1, 2, ... (sum_estimator.py:265-269);
      cache.remove, cache.dirty and cache.reset: estimator_cache.py:91-128 (a dictionary that has become empty is still
      dirty in the code; resetting it changes nothing). *)
  Definition nenv (secant : cplx -> cplx -> res cplx) (newton : cplx -> res cplx)
      (polyroots : list cplx -> res (list cplx)) (has_df : bool) (precision : Z * Z) (progress : bool) : env (ncache * LS) :=
    mkEnv (S := ncache * LS)
      (fun _ _ st => (st, [], Err NotImplementedError))
      (fun a b st => (ddel ckey_eqb (a, b) (fst st), snd st))
      (fun st => match fst st with [] => false | _ => true end)
      (fun st => ([], snd st))
      secant newton polyroots has_df precision progress.
End Moment.
