(** * Phases that are not numbers: algorithms/simple_holo.py, simple_holo_newton.py, polynomial_holo.py

    In Refine_Model.v the estimator returns rational phases.  If f overflows or is nan at a sample point, the phase of a
    whole line is nan (numpy only warns); quadrature can also give infinities.  Here the same
    functions are modelled for estimators returning such values.  Everything that does not involve the phase of a
    rectangle (Newton iterations, higher moments, the polynomial solver) is taken from Refine_Model.v and stays finite. *)
From Verif Require Import PyBase Rounding_Model Poly_Model Refine_Model Container_Model Nan_Model.
Open Scope Z_scope.
Open Scope list_scope.

(** int(np.round(nan)) raises ValueError, int(np.round(inf)) raises OverflowError. Code: simple_holo.py:236. *)
Definition OverflowError : exn := OtherExn 34.

(** [XPhase]: the answer of estimator.calcMoment(0, ..); [XDropped]: rectangle given up because of its phase; [XStuck]: ghost,
    the rectangle whose order could not be computed; [Old]: the events of Refine_Model.v. Code: simple_holo.py:112-242. *)
Inductive xevent : Type :=
| Old (e : event)
| XPhase (r : rect) (m : res xcplx)
| XDropped (r : rect) (phi : num)
| XStuck (r : rect) (phi : num).

Section XRefine.
  Context {S : Type}.
  (** The environment of Refine_Model.v, of which [e_est E] is only used for moments of order 1, 2, ... *)
  Variable E : env S.
  (** estimator.calcMoment(0, reRan, imRan, context): new state, zeros met on the contour, value / (2 pi). *)
  Variable phase : rect -> S -> S * list cplx * res xcplx.

  (** State, events and outcome of a computation of simple_holo.py:76-242. *)
  Definition XM (A : Type) : Type := S -> S * list xevent * outcome A.
  (** return, simple_holo.py:76-242. *)
  Definition xret {A} (a : A) : XM A := fun s => (s, [], Done a).
  (** raise, simple_holo.py:76-242. *)
  Definition xraise {A} (e : exn) : XM A := fun s => (s, [], Raised e).
  (** An observable effect, simple_holo.py:76-242. *)
  Definition xemit (l : list xevent) : XM unit := fun s => (s, l, Done tt).
  (** A statement and what follows it, simple_holo.py:76-242. *)
  Definition xbind {A B} (m : XM A) (k : A -> XM B) : XM B := fun s =>
    match m s with
    | (s1, l1, Done a) => let '(s2, l2, o) := k a s1 in (s2, l1 ++ l2, o)
    | (s1, l1, Raised e) => (s1, l1, Raised e)
    | (s1, l1, OutOfFuel) => (s1, l1, OutOfFuel)
    end.
  (** Two statements, simple_holo.py:76-242. *)
  Definition xseq {A B} (m : XM A) (k : XM B) : XM B := xbind m (fun _ => k).
  (** A computation of Refine_Model.v. Code: argument_estimator.py:27-79, simple_holo_newton.py:68-100, polynomial_holo.py:72-105. *)
  Definition lift {A} (m : @M S A) : XM A := fun s => let '(s', l, o) := m s in (s', map Old l, o).

  (** simple_holo.py:97-100 and 190-213: the moment of order 0. *)
  Definition xmoment (r : rect) : XM xcplx := fun s =>
    let '(s', zs, v) := phase r s in
    (s', map (fun z => Old (EvRoot (z, 0))) zs ++ [XPhase r v],
     match v with Ok m => Done m | Err e => Raised e end).
  (** calculateRefinedMoment, simple_holo.py:190-213. *)
  Definition xrefined (r : rect) : XM num := xbind (xmoment r) (fun m => xret (fst m)).

  (** simple_holo.py:215-242, [getRootFromRectangle]: the order is computed before the root is added. *)
  Definition xgetRoot (r : rect) (phi : num) : XM unit :=
    match phi with
    | Fin q => lift (getRootFromRectangle E r q)
    | NaN => xseq (xemit [XStuck r phi]) (xraise ValueError)
    | _ => xseq (xemit [XStuck r phi]) (xraise OverflowError)
    end.

  (** simple_holo.py:112-188: [phi < TWO_PI] is false if phi is nan. *)
  Definition xdecide_simple (self : rect -> num -> XM unit) (r : rect) (phi : num) : XM unit :=
    if num_ltb phi (Fin TWO_PI) then
      xseq (xemit [XDropped r phi]) (lift (advance E (area r)))
    else if Qltb (deltaRe r) (epsRe E) && Qltb (deltaIm r) (epsIm E) then
      xgetRoot r phi
    else if Qltb (deltaIm r / epsIm E) (deltaRe r / epsRe E) then
      let mid := ((x1 r + x2 r) / 2)%Q in
      let left := mkRect (x1 r) mid (y1 r) (y2 r) in
      let right := mkRect mid (x2 r) (y1 r) (y2 r) in
      xbind (xrefined left) (fun phi1 =>
      xseq (self left phi1) (
      xseq (lift (cacheRemove E (x1 r, y2 r) (x1 r, y1 r))) (
      xbind (xrefined right) (fun phi2 =>
      xseq (self right phi2)
           (lift (cacheRemove E (x2 r, y1 r) (x2 r, y2 r)))))))
    else
      let mid := ((y1 r + y2 r) / 2)%Q in
      let bottom := mkRect (x1 r) (x2 r) (y1 r) mid in
      let top := mkRect (x1 r) (x2 r) mid (y2 r) in
      xbind (xrefined bottom) (fun phi1 =>
      xseq (self bottom phi1) (
      xseq (lift (cacheRemove E (x1 r, y1 r) (x2 r, y1 r))) (
      xbind (xrefined top) (fun phi2 =>
      xseq (self top phi2)
           (lift (cacheRemove E (x2 r, y2 r) (x1 r, y2 r))))))).

  (** The value of a phase known to be finite. Code: simple_holo_newton.py:67, polynomial_holo.py:72. *)
  Definition number (phi : num) : Q := match phi with Fin q => q | _ => 0%Q end.

  (** simple_holo_newton.py:29-103; the Newton step is only reached if TWO_PI < phi < FOUR_PI. *)
  Definition xdecide_newton (self : rect -> num -> XM unit) (r : rect) (phi : num) : XM unit :=
    if num_ltb (Fin TWO_PI) phi && Qltb (deltaRe r) (epsRe E) && Qltb (deltaIm r) (epsIm E) then
      xgetRoot r phi
    else if num_ltb (Fin TWO_PI) phi && num_ltb phi (Fin FOUR_PI) &&
            Qltb (deltaRe r) (1 # 10) && Qltb (deltaIm r) (1 # 10) then
      lift (newton_branch E r (number phi))
    else xdecide_simple self r phi.

  (** polynomial_holo.py:31-105; the polynomial step is only reached if TWO_PI < phi < MAX_PHASE. *)
  Definition xdecide_poly (self : rect -> num -> XM unit) (r : rect) (phi : num) : XM unit :=
    if negb (e_has_df E) then xraise ValueError
    else if num_ltb (Fin TWO_PI) phi && Qltb (deltaRe r) (epsRe E) && Qltb (deltaIm r) (epsIm E) then
      xgetRoot r phi
    else if num_ltb (Fin TWO_PI) phi && num_ltb phi (Fin MAX_PHASE) then
      lift (
        let degree := round_half_even (number phi) in
        mbind (moments_from E 1 (Z.to_nat degree) r) (fun moments =>
        match e_polyroots E (coefficients_cplx moments) with
        | Err e => raise e
        | Ok roots =>
            mseq (emit (EvPoly r (number phi) :: map EvRoot (group_roots (e_precision E) roots)))
                 (advance E (area r))
        end))
    else xdecide_simple self r phi.

  (** simple_holo.py:112, simple_holo_newton.py:29, polynomial_holo.py:31; recursion depth explicit. *)
  Fixpoint xdecideRefinement (v : variant) (fuel : nat) (r : rect) (phi : num) : XM unit :=
    match fuel with
    | O => fun s => (s, [], OutOfFuel)
    | Datatypes.S n =>
        match v with
        | Simple => xdecide_simple (xdecideRefinement v n) r phi
        | NewtonV => xdecide_newton (xdecideRefinement v n) r phi
        | PolyV => xdecide_poly (xdecideRefinement v n) r phi
        end
    end.

  (** simple_holo.py:76-110, [calcRoots]. *)
  Definition xcalcRoots (v : variant) (fuel : nat) (r : rect) : XM unit := fun s =>
    let s0 := if e_dirty E s then e_reset E s else s in
    (xbind (xmoment r) (fun m => xdecideRefinement v fuel r (fst m))) s0.
End XRefine.
