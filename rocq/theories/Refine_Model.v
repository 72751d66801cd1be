(** * Adaptive refinement: algorithms/simple_holo.py, simple_holo_newton.py, polynomial_holo.py *)
From Verif Require Import PyBase Rounding_Model Poly_Model.
Open Scope Z_scope.

(** The pair reRan, imRan: simple_holo.py:132-133. *)
Record rect : Type := mkRect { x1 : Q; x2 : Q; y1 : Q; y2 : Q }.

(** simple_holo.py:134. *)
Definition deltaRe (r : rect) : Q := (x2 r - x1 r)%Q.
(** simple_holo.py:135. *)
Definition deltaIm (r : rect) : Q := (y2 r - y1 r)%Q.
(** deltaRe * deltaIm, simple_holo.py:141. *)
Definition area (r : rect) : Q := (deltaRe r * deltaIm r)%Q.

(** algorithms/constants.py:14-25, divided by 2 pi: angles are measured in turns. *)
Definition TWO_PI : Q := 8 # 10.       (* 0.8  * (2 * pi) *)
(** algorithms/constants.py:17. *)
Definition FOUR_PI : Q := 13 # 10.     (* 0.65 * (4 * pi) *)
(** algorithms/constants.py:25. *)
Definition MAX_PHASE : Q := 34 # 10.   (* 0.85 * (8 * pi) *)

(** What a run does, in order.  [EvRoot] is [context.container.addRoot(root,
    context.toFilterContext())], [EvAdvance] is [context.progress.update(task, advance=..)];
    the other events are ghosts recording which branch handled which rectangle and which
    answer the estimator gave. Code: simple_holo.py:138-187, 237. *)
Inductive event : Type :=
| EvRoot (r : root)
| EvAdvance (a : Q)
| EvMoment (order : Z) (r : rect) (m : res cplx)
| EvDiscard (r : rect) (phi : Q)
| EvReport (r : rect) (phi : Q)
| EvNewton (r : rect) (phi : Q)
| EvPoly (r : rect) (phi : Q).

(** How a call of decideRefinement (simple_holo.py:112-188) ends. *)
Inductive outcome (A : Type) : Type :=
| Done (a : A)
| Raised (e : exn)
| OutOfFuel.
Arguments Done {A} a.
Arguments Raised {A} e.
Arguments OutOfFuel {A}.

(** The three classes: simple_holo.py:32, simple_holo_newton.py:18, polynomial_holo.py:20. *)
Inductive variant : Type := Simple | NewtonV | PolyV.

Section Refine.
  Context {S : Type}.   (* state of estimator and caches *)

  (** The environment of a search. Code: simple_holo.py:63-74, root_context.py:21-35. *)
  Record env : Type := mkEnv {
    (* estimator.calcMoment(order, reRan, imRan, context): new state, zeros found on
       contour samples (added with order 0, argument_estimator.py:127-132), value / (2 pi) *)
    e_est : Z -> rect -> S -> S * list cplx * res cplx;
    (* cache.remove(0, a, b) *)
    e_rm : cplx -> cplx -> S -> S;
    (* cache.dirty() / cache.reset() *)
    e_dirty : S -> bool;
    e_reset : S -> S;
    (* scipy newton with two start points / with derivative from one start point *)
    e_secant : cplx -> cplx -> res cplx;
    e_newton : cplx -> res cplx;
    (* numpy.polynomial.Polynomial(coefficients).roots() *)
    e_polyroots : list cplx -> res (list cplx);
    e_has_df : bool;               (* context.df is not None *)
    e_precision : Z * Z;           (* context.precision *)
    e_progress : bool              (* context.progress and context.task are not None *)
  }.

  (** State, event log and outcome of a computation. Code: simple_holo.py:76-242. *)
  Definition M (A : Type) : Type := S -> S * list event * outcome A.
  (** return, simple_holo.py:76-242. *)
  Definition ret {A} (a : A) : M A := fun s => (s, [], Done a).
  (** raise, simple_holo.py:76-242. *)
  Definition raise {A} (e : exn) : M A := fun s => (s, [], Raised e).
  (** No fuel left (not a Python outcome; excluded or named in the theorems), simple_holo.py:76-242. *)
  Definition out_of_fuel {A} : M A := fun s => (s, [], OutOfFuel).
  (** An observable effect, simple_holo.py:76-242. *)
  Definition emit (evs : list event) : M unit := fun s => (s, evs, Done tt).
  (** A statement and what follows it, simple_holo.py:76-242. *)
  Definition mbind {A B} (m : M A) (k : A -> M B) : M B := fun s =>
    match m s with
    | (s1, l1, Done a) => let '(s2, l2, o) := k a s1 in (s2, l1 ++ l2, o)
    | (s1, l1, Raised e) => (s1, l1, Raised e)
    | (s1, l1, OutOfFuel) => (s1, l1, OutOfFuel)
    end.
  (** Two statements, simple_holo.py:76-242. *)
  Definition mseq {A B} (m : M A) (k : M B) : M B := mbind m (fun _ => k).

  Variable E : env.

  (** simple_holo.py:156. *)
  Definition epsRe : Q := pow10 (- fst (e_precision E)).
  (** simple_holo.py:157. *)
  Definition epsIm : Q := pow10 (- snd (e_precision E)).

  (** context.progress.update(task, advance=..), simple_holo.py:139-142. *)
  Definition advance (a : Q) : M unit := emit (if e_progress E then [EvAdvance a] else []).

  (** estimator.calcMoment; a raised exception propagates. Code: argument_estimator.py:27-79. *)
  Definition calcMoment (order : Z) (r : rect) : M cplx := fun s =>
    let '(s', zs, v) := e_est E order r s in
    (s', map (fun z => EvRoot (z, 0)) zs ++ [EvMoment order r v],
     match v with Ok m => Done m | Err e => Raised e end).

  (** simple_holo.py:190-213, [calculateRefinedMoment]: the real part of the moment. *)
  Definition calculateRefinedMoment (r : rect) : M Q :=
    mbind (calcMoment 0 r) (fun m => ret (re m)).

  (** simple_holo.py:171, 176, 183, 187. *)
  Definition cacheRemove (a b : cplx) : M unit := fun s => (e_rm E a b s, [], Done tt).

  (** simple_holo.py:235. *)
  Definition center (r : rect) : cplx := ((x1 r + x2 r) / 2, (y1 r + y2 r) / 2)%Q.

  (** simple_holo.py:215-242, [getRootFromRectangle].  The advance is
      (right.real - left.real) * (top.imag - bottom.imag); [.imag] of a Python or numpy
      float is 0.0, so it is always 0. *)
  Definition getRootFromRectangle (r : rect) (phi : Q) : M unit :=
    mseq (emit [EvReport r phi; EvRoot (center r, round_half_even phi)])
         (advance (deltaRe r * (0 - 0))%Q).

  (** simple_holo.py:112-188, [SimpleArgumentAlgorithm.decideRefinement]; [self] is the
      virtual [self.decideRefinement]. *)
  Definition decide_simple (self : rect -> Q -> M unit) (r : rect) (phi : Q) : M unit :=
    if Qltb phi TWO_PI then
      mseq (emit [EvDiscard r phi]) (advance (area r))
    else if Qltb (deltaRe r) epsRe && Qltb (deltaIm r) epsIm then
      getRootFromRectangle r phi
    else if Qltb (deltaIm r / epsIm) (deltaRe r / epsRe) then
      let mid := ((x1 r + x2 r) / 2)%Q in
      let left := mkRect (x1 r) mid (y1 r) (y2 r) in
      let right := mkRect mid (x2 r) (y1 r) (y2 r) in
      mbind (calculateRefinedMoment left) (fun phi1 =>
      mseq (self left phi1) (
      mseq (cacheRemove (x1 r, y2 r) (x1 r, y1 r)) (
      mbind (calculateRefinedMoment right) (fun phi2 =>
      mseq (self right phi2)
           (cacheRemove (x2 r, y1 r) (x2 r, y2 r))))))
    else
      let mid := ((y1 r + y2 r) / 2)%Q in
      let bottom := mkRect (x1 r) (x2 r) (y1 r) mid in
      let top := mkRect (x1 r) (x2 r) mid (y2 r) in
      mbind (calculateRefinedMoment bottom) (fun phi1 =>
      mseq (self bottom phi1) (
      mseq (cacheRemove (x1 r, y1 r) (x2 r, y1 r)) (
      mbind (calculateRefinedMoment top) (fun phi2 =>
      mseq (self top phi2)
           (cacheRemove (x2 r, y2 r) (x1 r, y2 r)))))).

  (** simple_holo_newton.py:68-100: secant iteration, then Newton iteration if a
      derivative is available; RuntimeError ends the attempt silently; the progress bar
      is advanced in any case.  (A RuntimeError raised by a container filter is swallowed
      as well: see Coupled_Model.v.) *)
  Definition newton_branch (r : rect) (phi : Q) : M unit :=
    let my := ((1 # 2) * (y1 r + y2 r))%Q in
    let finish (evs : list event) (e : option exn) : M unit :=
      mseq (emit evs) (mseq (advance (area r))
        (match e with
         | None => ret tt
         | Some x => if catches_RuntimeError x then ret tt else raise x
         end)) in
    match e_secant E (x1 r, my) (x2 r, my) with
    | Err e => finish [EvNewton r phi] (Some e)
    | Ok z =>
        if e_has_df E then
          match e_newton E (((x1 r + x2 r) * (1 # 2), (y1 r + y2 r) * (1 # 2)))%Q with
          | Err e => finish [EvNewton r phi; EvRoot (z, 1)] (Some e)
          | Ok w => finish [EvNewton r phi; EvRoot (z, 1); EvRoot (w, 1)] None
          end
        else finish [EvNewton r phi; EvRoot (z, 1)] None
    end.

  (** simple_holo_newton.py:29-103, [SimpleArgumentNewtonAlgorithm.decideRefinement]. *)
  Definition decide_newton (self : rect -> Q -> M unit) (r : rect) (phi : Q) : M unit :=
    if Qltb TWO_PI phi && Qltb (deltaRe r) epsRe && Qltb (deltaIm r) epsIm then
      getRootFromRectangle r phi
    else if Qltb TWO_PI phi && Qltb phi FOUR_PI &&
            Qltb (deltaRe r) (1 # 10) && Qltb (deltaIm r) (1 # 10) then
      newton_branch r phi
    else decide_simple self r phi.

  (** polynomial_holo.py:81-88: the moments of order 1 .. degree. *)
  Fixpoint moments_from (k : Z) (n : nat) (r : rect) : M (list cplx) :=
    match n with
    | O => ret []
    | Datatypes.S n' =>
        mbind (calcMoment k r) (fun m =>
        mbind (moments_from (k + 1) n' r) (fun ms => ret (m :: ms)))
    end.

  (** polynomial_holo.py:31-105, [AssociatedPolynomialAlgorithm.decideRefinement]. *)
  Definition decide_poly (self : rect -> Q -> M unit) (r : rect) (phi : Q) : M unit :=
    if negb (e_has_df E) then raise ValueError
    else if Qltb TWO_PI phi && Qltb (deltaRe r) epsRe && Qltb (deltaIm r) epsIm then
      getRootFromRectangle r phi
    else if Qltb TWO_PI phi && Qltb phi MAX_PHASE then
      let degree := round_half_even phi in
      mbind (moments_from 1 (Z.to_nat degree) r) (fun moments =>
      match e_polyroots E (coefficients_cplx moments) with
      | Err e => raise e
      | Ok roots =>
          mseq (emit (EvPoly r phi :: map EvRoot (group_roots (e_precision E) roots)))
               (advance (area r))
      end)
    else decide_simple self r phi.

  (** Virtual dispatch, with explicit recursion depth. Code: simple_holo.py:112, simple_holo_newton.py:29, polynomial_holo.py:31. *)
  Fixpoint decideRefinement (v : variant) (fuel : nat) (r : rect) (phi : Q) : M unit :=
    match fuel with
    | O => out_of_fuel
    | Datatypes.S n =>
        match v with
        | Simple => decide_simple (decideRefinement v n) r phi
        | NewtonV => decide_newton (decideRefinement v n) r phi
        | PolyV => decide_poly (decideRefinement v n) r phi
        end
    end.

  (** simple_holo.py:76-110, [calcRoots] (inherited by all three). *)
  Definition calcRoots (v : variant) (fuel : nat) (r : rect) : M unit := fun s =>
    let s0 := if e_dirty E s then e_reset E s else s in
    (mbind (calcMoment 0 r) (fun m => decideRefinement v fuel r (re m))) s0.
End Refine.
Arguments env S : clear implicits.
