(** * The argument based algorithms together with the container they report to

    Refine_Model.v lists the reports of a run; here every report goes into the container at
    once, so that an exception of a filter strikes where it happens in the code.  Same
    monad, with the container as part of the state. *)
From Verif Require Import PyBase Rounding_Model Container_Model Poly_Model Refine_Model Finder_Model EndToEnd_Model.
Open Scope Z_scope.

Section Coupled.
  Context {S : Type}.
  Variable E : env S.
  Variable fctxt : fctx.             (* context.toFilterContext() *)
  Variable info : root -> bool.      (* log level at each report *)

  (** A computation of a search with its effects: estimator, container and events (simple_holo.py:76-188). *)
  Definition CM (A : Type) : Type := @M (S * rcont) A.

  (** context.container.addRoot(root, context.toFilterContext()). Code: simple_holo.py:237, simple_holo_newton.py:80-82, 91-93, argument_estimator.py:129-132. *)
  Definition addRoot (r : root) : CM unit := fun st =>
    let (c', v) := rc_add (info r) r fctxt (snd st) in
    ((fst st, c'), [EvRoot r], match v with Ok _ => Done tt | Err e => Raised e end).

  (** The zeros met on a contour, argument_estimator.py:127-132. *)
  Fixpoint addRoots (l : list root) : CM unit :=
    match l with
    | [] => ret tt
    | r :: l' => mseq (addRoot r) (addRoots l')
    end.

  (** estimator.calcMoment: zeros met on sample points are reported while it runs
      (argument_estimator.py:127-132).  Simplification: if a filter raises there, the state
      of the estimator is taken to be the one after the whole call. *)
  Definition c_calcMoment (order : Z) (r : rect) : CM cplx := fun st =>
    let '(s', zs, v) := e_est E order r (fst st) in
    mseq (addRoots (map (fun z => (z, 0)) zs))
      (mseq (emit [EvMoment order r v])
        (match v with Ok m => ret m | Err e => raise e end)) (s', snd st).

  (** simple_holo.py:190-213 *)
  Definition c_calculateRefinedMoment (r : rect) : CM Q :=
    mbind (c_calcMoment 0 r) (fun m => ret (re m)).

  (** self.cache.remove, simple_holo.py:171, 176, 183, 187. *)
  Definition c_cacheRemove (a b : cplx) : CM unit := fun st => ((e_rm E a b (fst st), snd st), [], Done tt).
  (** context.progress.update, simple_holo.py:139-142. *)
  Definition c_advance (a : Q) : CM unit := emit (if e_progress E then [EvAdvance a] else []).

  (** simple_holo.py:215-242 *)
  Definition c_getRootFromRectangle (r : rect) (phi : Q) : CM unit :=
    mseq (emit [EvReport r phi])
    (mseq (addRoot (center r, round_half_even phi)) (c_advance (deltaRe r * (0 - 0))%Q)).

  (** simple_holo.py:112-188 *)
  Definition c_decide_simple (self : rect -> Q -> CM unit) (r : rect) (phi : Q) : CM unit :=
    if Qltb phi TWO_PI then
      mseq (emit [EvDiscard r phi]) (c_advance (area r))
    else if Qltb (deltaRe r) (epsRe E) && Qltb (deltaIm r) (epsIm E) then
      c_getRootFromRectangle r phi
    else if Qltb (deltaIm r / epsIm E) (deltaRe r / epsRe E) then
      let mid := ((x1 r + x2 r) / 2)%Q in
      let left := mkRect (x1 r) mid (y1 r) (y2 r) in
      let right := mkRect mid (x2 r) (y1 r) (y2 r) in
      mbind (c_calculateRefinedMoment left) (fun phi1 =>
      mseq (self left phi1) (
      mseq (c_cacheRemove (x1 r, y2 r) (x1 r, y1 r)) (
      mbind (c_calculateRefinedMoment right) (fun phi2 =>
      mseq (self right phi2)
           (c_cacheRemove (x2 r, y1 r) (x2 r, y2 r))))))
    else
      let mid := ((y1 r + y2 r) / 2)%Q in
      let bottom := mkRect (x1 r) (x2 r) (y1 r) mid in
      let top := mkRect (x1 r) (x2 r) mid (y2 r) in
      mbind (c_calculateRefinedMoment bottom) (fun phi1 =>
      mseq (self bottom phi1) (
      mseq (c_cacheRemove (x1 r, y1 r) (x2 r, y1 r)) (
      mbind (c_calculateRefinedMoment top) (fun phi2 =>
      mseq (self top phi2)
           (c_cacheRemove (x2 r, y2 r) (x1 r, y2 r)))))).

  (** simple_holo_newton.py:68-93: the body of the try statement. *)
  Definition lift {A} (v : res A) : CM A := match v with Ok a => ret a | Err e => raise e end.
  (** simple_holo_newton.py:69-93. *)
  Definition try_body (r : rect) : CM unit :=
    let my := ((1 # 2) * (y1 r + y2 r))%Q in
    mbind (lift (e_secant E (x1 r, my) (x2 r, my))) (fun z =>
    mseq (addRoot (z, 1))
      (if e_has_df E then
         mbind (lift (e_newton E (((x1 r + x2 r) * (1 # 2), (y1 r + y2 r) * (1 # 2)))%Q)) (fun w =>
         addRoot (w, 1))
       else ret tt)).

  (** simple_holo_newton.py:68-100: try .. except RuntimeError: pass .. finally.  The body
      runs, a RuntimeError is dropped, and the progress bar is advanced before any other
      exception goes on. *)
  Definition c_newton_branch (r : rect) (phi : Q) : CM unit :=
    mseq (emit [EvNewton r phi]) (fun st =>
      let '(st1, l1, o) := try_body r st in
      let '(st2, l2, _) := c_advance (area r) st1 in
      (st2, l1 ++ l2,
       match o with
       | Raised e => if catches_RuntimeError e then Done tt else Raised e
       | _ => o
       end)).

  (** simple_holo_newton.py:29-103 *)
  Definition c_decide_newton (self : rect -> Q -> CM unit) (r : rect) (phi : Q) : CM unit :=
    if Qltb TWO_PI phi && Qltb (deltaRe r) (epsRe E) && Qltb (deltaIm r) (epsIm E) then
      c_getRootFromRectangle r phi
    else if Qltb TWO_PI phi && Qltb phi FOUR_PI &&
            Qltb (deltaRe r) (1 # 10) && Qltb (deltaIm r) (1 # 10) then
      c_newton_branch r phi
    else c_decide_simple self r phi.

  (** polynomial_holo.py:81-88 *)
  Fixpoint c_moments_from (k : Z) (n : nat) (r : rect) : CM (list cplx) :=
    match n with
    | O => ret []
    | Datatypes.S n' =>
        mbind (c_calcMoment k r) (fun m =>
        mbind (c_moments_from (k + 1) n' r) (fun ms => ret (m :: ms)))
    end.

  (** polynomial_holo.py:31-105 *)
  Definition c_decide_poly (self : rect -> Q -> CM unit) (r : rect) (phi : Q) : CM unit :=
    if negb (e_has_df E) then raise ValueError
    else if Qltb TWO_PI phi && Qltb (deltaRe r) (epsRe E) && Qltb (deltaIm r) (epsIm E) then
      c_getRootFromRectangle r phi
    else if Qltb TWO_PI phi && Qltb phi MAX_PHASE then
      mbind (c_moments_from 1 (Z.to_nat (round_half_even phi)) r) (fun moments =>
      mbind (lift (e_polyroots E (coefficients_cplx moments))) (fun roots =>
      mseq (emit [EvPoly r phi])
      (mseq (addRoots (group_roots (e_precision E) roots))
            (c_advance (area r)))))
    else c_decide_simple self r phi.

  (** decideRefinement of the class in use, simple_holo.py:112, simple_holo_newton.py:29, polynomial_holo.py:31; recursion depth explicit. *)
  Fixpoint c_decideRefinement (v : variant) (fuel : nat) (r : rect) (phi : Q) : CM unit :=
    match fuel with
    | O => out_of_fuel
    | Datatypes.S n =>
        match v with
        | Simple => c_decide_simple (c_decideRefinement v n) r phi
        | NewtonV => c_decide_newton (c_decideRefinement v n) r phi
        | PolyV => c_decide_poly (c_decideRefinement v n) r phi
        end
    end.

  (** simple_holo.py:76-110 *)
  Definition c_calcRoots (v : variant) (fuel : nat) (r : rect) : CM unit := fun st =>
    let s0 := if e_dirty E (fst st) then e_reset E (fst st) else fst st in
    (mbind (c_calcMoment 0 r) (fun m => c_decideRefinement v fuel r (re m))) (s0, snd st).
End Coupled.

(** rootfinder.py:112-170, [RootFinder.calculateRoots] around these algorithms: what is in
    the container afterwards and how the call ends. *)
Definition search_into {S} (E : env S) (v : variant) (depth : nat) (info : root -> bool) (s : S)
    (f : holoFunc) (df : option holoFunc) (dflt : Z * Z)
    (reRan imRan : Q * Q) (precision : option (Z * Z)) (c : rcont) : rcont * res unit :=
  let x := serial_context f df dflt reRan imRan precision in
  let '(st, _, o) := c_calcRoots (env_for E x) (toFilterContext x) info v depth (rect_of x) (s, c) in
  (snd st, match o with
           | Done _ => Ok tt
           | Raised KeyboardInterrupt => Ok tt
           | Raised e => Err e
           | OutOfFuel => Err RecursionError
           end).
