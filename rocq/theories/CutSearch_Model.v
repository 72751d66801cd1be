(** * Searches with the summation estimator that are interrupted at any instant: the caches
    they leave to the next search of the same finder *)
From Coq Require Import Reals.
From Verif Require Import PyBase Finder_Model Refine_Model Cache_Model Sum_Model Sum_Spec EndToEnd_Model Whole_Model.
Open Scope Z_scope.

(** sum_estimator.py:177-179, 240-242 and 343-344: from the line cache [c] before a request and [c']
    after it, the cache after [j] of its dictionary operations: the inner dictionary made
    (nothing if there is one), the "start" entry, the "end" entry. *)
Definition cut_cache {A} (j : nat) (level : Q) (order : Z) (start : Q) (c c' : lcache A) : lcache A :=
  let opened := match dget okey_eqb (level, order) c with
                | None => dset okey_eqb (level, order) [] c
                | Some _ => c
                end in
  match j with
  | O => c
  | 1%nat => opened
  | 2%nat =>
      match dget okey_eqb (level, order) c', dget okey_eqb (level, order) opened with
      | Some d', Some d =>
          match dget skey_eqb (start, StartSide) d' with
          | Some v => dset okey_eqb (level, order) (dset skey_eqb (start, StartSide) v d) opened
          | None => opened
          end
      | _, _ => opened
      end
  | _ => c'
  end.

(** sum_estimator.py:80-115, a request cut off after [j] of these operations ([j = 0]: at any
    time before the first one, e.g. while sampling). *)
Definition cut_line (j : nat) (f : cplx -> cR) (deltaPhi : R) (maxPrecision : Q) (numPts : nat)
    (precision : Z * Z) (fuel : nat) (order : Z) (zStart zEnd : cplx) (st : sum_state R) : sum_state R :=
  match sum_line f deltaPhi maxPrecision numPts precision fuel order zStart zEnd st with
  | (st', SumOk _ _) =>
      if Qeq_bool (im zStart) (im zEnd)
      then mkSum (cut_cache j (im zStart) order (if Qle_bool (re zStart) (re zEnd) then re zStart else re zEnd)
                    (horizontal st) (horizontal st')) (vertical st)
      else mkSum (horizontal st)
             (cut_cache j (re zStart) order (if Qle_bool (im zStart) (im zEnd) then im zStart else im zEnd)
                (vertical st) (vertical st'))
  | _ => st
  end.

(** The line method when the KeyboardInterrupt arrives in the request after [k] others; the
    number counts down (Whole_Model.v, [turn_line]; argument_estimator.py:81-99).  The zeros
    that this last request may have reported are the container's affair (Instant_Model.v) and
    left out. *)
Definition interrupted_line (turns : R -> Q) (j : nat) (f : cplx -> cR) (deltaPhi : R) (maxPrecision : Q) (numPts : nat)
    (precision : Z * Z) (fuel : nat) (order : Z) (zStart zEnd : cplx) (st : nat * sum_state R)
    : (nat * sum_state R) * list cplx * res cplx :=
  match fst st with
  | O => ((O, cut_line j f deltaPhi maxPrecision numPts precision fuel order zStart zEnd (snd st)), [], Err KeyboardInterrupt)
  | S k =>
      let '(st', found, r) := turn_line turns f deltaPhi maxPrecision numPts precision fuel order zStart zEnd (snd st) in
      ((k, st'), found, r)
  end.

(** The state after the search [x] if it is interrupted in its request number [k] (from 0)
    after [j] dictionary operations; the complete search if it makes fewer requests.
    Code: rootfinder.py:153-167. *)
Definition leaves_interrupted (turns : R -> Q) (j k : nat) (f : cplx -> cR) (deltaPhi : R) (maxPrecision : Q) (numPts : nat)
    (precision : Z * Z) (fuel : nat) (debug : bool)
    (secant : cplx -> cplx -> res cplx) (newton : cplx -> res cplx)
    (polyroots : list cplx -> res (list cplx)) (has_df progress : bool) (depth : nat) (x : rctx)
    (s : ecache * sum_state R) : ecache * sum_state R :=
  let E := cached_env (interrupted_line turns j f deltaPhi maxPrecision numPts precision fuel) debug
             secant newton polyroots has_df precision progress in
  let '((c, (_, st)), _, _) := calcRoots (env_for E x) Simple depth (rect_of x) (fst s, (k, snd s)) in
  (c, st).

(** Searches of one finder, some interrupted ([Some (k, j)]). Code: rootfinder.py:112-170. *)
Definition after_interrupted (turns : R -> Q) (f : cplx -> cR) (deltaPhi : R) (maxPrecision : Q) (numPts : nat)
    (precision : Z * Z) (fuel : nat) (debug : bool)
    (secant : cplx -> cplx -> res cplx) (newton : cplx -> res cplx)
    (polyroots : list cplx -> res (list cplx)) (has_df progress : bool)
    (h : list (rctx * nat * option (nat * nat))) (s : ecache * sum_state R) : ecache * sum_state R :=
  fold_left (fun s xdc =>
    match snd xdc with
    | None => leaves (sum_env turns f deltaPhi maxPrecision numPts precision fuel debug secant newton polyroots has_df progress)
                (snd (fst xdc)) (fst (fst xdc)) s
    | Some (k, j) => leaves_interrupted turns j k f deltaPhi maxPrecision numPts precision fuel debug
                       secant newton polyroots has_df progress (snd (fst xdc)) (fst (fst xdc)) s
    end) h s.
