(** * Floating point: the adaptive refinement with every arithmetic operation rounded
    (algorithms/simple_holo.py, simple_holo_newton.py, polynomial_holo.py), the widened
    domain (rootfinders/rootfinder.py) and the job grid (rootfinders/parallel_finder.py).

    Refine_Model and Finder_Model compute with exact rationals.  Here the same functions take
    a rounding function [rnd], applied after every [+ - * /] of the source; comparisons are
    exact.  [rnd64] is IEEE binary64 with round-half-even and gradual underflow; overflow to
    infinity is not modelled.  [tolRe], [tolIm] are the values of the Python expressions
    [10 ** (-context.precision[i])], which the C library computes, so their exact value is
    left open. *)
From Verif Require Import PyBase Rounding_Model Poly_Model Refine_Model.
Open Scope Z_scope.

(** 2 ^ e for any integer e. Code: needed for rnd64; no counterpart in the Python code, which uses the float type, e.g. simple_holo.py:134-135. *)
Definition pow2 (e : Z) : Q := if 0 <=? e then inject_Z (2 ^ e) else (1 # Z.to_pos (2 ^ (- e))).

(** The exponent [m] with 2^(m-1) <= |q| < 2^m, for q <> 0. Code: as pow2: part of the float arithmetic of simple_holo.py:134-135, 166, 178, 235. *)
Definition magnitude (q : Q) : Z :=
  let k := Z.log2 (Z.abs (Qnum q)) - Z.log2 (Zpos (Qden q)) in
  if Qle_bool (pow2 k) (Qabs q) then k + 1 else k.

(** IEEE 754 binary64, round to nearest, ties to even (53 significant bits, least exponent
    -1074), as implemented by Python's and numpy's float. Code: the float type of simple_holo.py:134-135, 166, 178, 235. *)
Definition rnd64 (q : Q) : Q :=
  if Qeq_bool q 0 then 0%Q
  else let e := Z.max (magnitude q - 53) (-1074) in
       Qred (inject_Z (round_half_even (q * pow2 (- e))) * pow2 e)%Q.

Section RefineFloat.
  Context {S : Type}.
  Variable rnd : Q -> Q.
  Variables tolRe tolIm : Q.
  Variable E : env S.

  (** simple_holo.py:134-135. *)
  Definition fdeltaRe (r : rect) : Q := rnd (x2 r - x1 r)%Q.
  (** simple_holo.py:135. *)
  Definition fdeltaIm (r : rect) : Q := rnd (y2 r - y1 r)%Q.
  (** simple_holo.py:141, [deltaRe * deltaIm]. *)
  Definition farea (r : rect) : Q := rnd (fdeltaRe r * fdeltaIm r)%Q.
  (** simple_holo.py:166, 178: [(x1 + x2) / 2]. *)
  Definition fmid (a b : Q) : Q := rnd (rnd (a + b) / 2)%Q.
  (** simple_holo.py:235, [(left + right + 1j * (bottom + top)) / 2.0]: the products with 0
      and 1 and the sums with 0 inside the complex operations are exact. *)
  Definition fcenter (r : rect) : cplx := (fmid (x1 r) (x2 r), fmid (y1 r) (y2 r)).

  (** simple_holo.py:215-242; the advance is 0.0 as in Refine_Model. *)
  Definition fgetRoot (r : rect) (phi : Q) : M unit :=
    mseq (emit [EvReport r phi; EvRoot (fcenter r, round_half_even phi)])
         (advance E (fdeltaRe r * (0 - 0))%Q).

  (** simple_holo.py:112-188. *)
  Definition fdecide_simple (self : rect -> Q -> M unit) (r : rect) (phi : Q) : M unit :=
    if Qltb phi TWO_PI then
      mseq (emit [EvDiscard r phi]) (advance E (farea r))
    else if Qltb (fdeltaRe r) tolRe && Qltb (fdeltaIm r) tolIm then
      fgetRoot r phi
    else if Qltb (rnd (fdeltaIm r / tolIm)) (rnd (fdeltaRe r / tolRe)) then
      let mid := fmid (x1 r) (x2 r) in
      let left := mkRect (x1 r) mid (y1 r) (y2 r) in
      let right := mkRect mid (x2 r) (y1 r) (y2 r) in
      mbind (calculateRefinedMoment E left) (fun phi1 =>
      mseq (self left phi1) (
      mseq (cacheRemove E (x1 r, y2 r) (x1 r, y1 r)) (
      mbind (calculateRefinedMoment E right) (fun phi2 =>
      mseq (self right phi2)
           (cacheRemove E (x2 r, y1 r) (x2 r, y2 r))))))
    else
      let mid := fmid (y1 r) (y2 r) in
      let bottom := mkRect (x1 r) (x2 r) (y1 r) mid in
      let top := mkRect (x1 r) (x2 r) mid (y2 r) in
      mbind (calculateRefinedMoment E bottom) (fun phi1 =>
      mseq (self bottom phi1) (
      mseq (cacheRemove E (x1 r, y1 r) (x2 r, y1 r)) (
      mbind (calculateRefinedMoment E top) (fun phi2 =>
      mseq (self top phi2)
           (cacheRemove E (x2 r, y2 r) (x1 r, y2 r)))))).

  (** simple_holo_newton.py:68-100. *)
  Definition fnewton_branch (r : rect) (phi : Q) : M unit :=
    let my := rnd ((1 # 2) * rnd (y1 r + y2 r))%Q in
    let finish (evs : list event) (e : option exn) : M unit :=
      mseq (emit evs) (mseq (advance E (farea r))
        (match e with
         | None => ret tt
         | Some x => if catches_RuntimeError x then ret tt else raise x
         end)) in
    match e_secant E (x1 r, my) (x2 r, my) with
    | Err e => finish [EvNewton r phi] (Some e)
    | Ok z =>
        if e_has_df E then
          match e_newton E (rnd (rnd (x1 r + x2 r) * (1 # 2)), rnd (rnd (y1 r + y2 r) * (1 # 2)))%Q with
          | Err e => finish [EvNewton r phi; EvRoot (z, 1)] (Some e)
          | Ok w => finish [EvNewton r phi; EvRoot (z, 1); EvRoot (w, 1)] None
          end
        else finish [EvNewton r phi; EvRoot (z, 1)] None
    end.

  (** simple_holo_newton.py:29-103; 0.1 is the float nearest to 1/10. *)
  Definition fdecide_newton (self : rect -> Q -> M unit) (r : rect) (phi : Q) : M unit :=
    if Qltb TWO_PI phi && Qltb (fdeltaRe r) tolRe && Qltb (fdeltaIm r) tolIm then
      fgetRoot r phi
    else if Qltb TWO_PI phi && Qltb phi FOUR_PI &&
            Qltb (fdeltaRe r) (rnd (1 # 10)) && Qltb (fdeltaIm r) (rnd (1 # 10)) then
      fnewton_branch r phi
    else fdecide_simple self r phi.

  (** polynomial_holo.py:31-105; the polynomial itself (coefficients, roots, grouping) is
      computed exactly here. *)
  Definition fdecide_poly (self : rect -> Q -> M unit) (r : rect) (phi : Q) : M unit :=
    if negb (e_has_df E) then raise ValueError
    else if Qltb TWO_PI phi && Qltb (fdeltaRe r) tolRe && Qltb (fdeltaIm r) tolIm then
      fgetRoot r phi
    else if Qltb TWO_PI phi && Qltb phi MAX_PHASE then
      let degree := round_half_even phi in
      mbind (moments_from E 1 (Z.to_nat degree) r) (fun moments =>
      match e_polyroots E (coefficients_cplx moments) with
      | Err e => raise e
      | Ok roots =>
          mseq (emit (EvPoly r phi :: map EvRoot (group_roots (e_precision E) roots)))
               (advance E (farea r))
      end)
    else fdecide_simple self r phi.

  (** Virtual dispatch, with explicit recursion depth. Code: simple_holo.py:112, simple_holo_newton.py:29, polynomial_holo.py:31. *)
  Fixpoint fdecideRefinement (v : variant) (fuel : nat) (r : rect) (phi : Q) : M unit :=
    match fuel with
    | O => out_of_fuel
    | Datatypes.S n =>
        match v with
        | Simple => fdecide_simple (fdecideRefinement v n) r phi
        | NewtonV => fdecide_newton (fdecideRefinement v n) r phi
        | PolyV => fdecide_poly (fdecideRefinement v n) r phi
        end
    end.

  (** simple_holo.py:76-110, [calcRoots]. *)
  Definition fcalcRoots (v : variant) (fuel : nat) (r : rect) : M unit := fun s =>
    let s0 := if e_dirty E s then e_reset E s else s in
    (mbind (calcMoment E 0 r) (fun m => fdecideRefinement v fuel r (re m))) s0.
End RefineFloat.
