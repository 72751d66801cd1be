(** * The quadrature estimator: algorithms/estimators/quad_estimator.py *)
From Coq Require Import Reals Qreals.
From Verif Require Import PyBase Sum_Model.
Open Scope Z_scope.

(** estimators/constants.py: estimators/constants.py:14. *)
Definition EXP_SAMPLE_POINTS : nat := 10.
(** estimators/constants.py:16. *)
Definition MAX_SAMPLE_POINTS : nat := 21.

(** numpy.vstack((old, new)).ravel("F"): alternate; vstack raises ValueError for arrays of
    different lengths. Code: quad_estimator.py:129-132. *)
Fixpoint interleave {A} (old new : list A) : option (list A) :=
  match old, new with
  | [], [] => Some []
  | x :: xs, y :: ys => option_map (fun l => x :: y :: l) (interleave xs ys)
  | _, _ => None
  end.

(** quad_estimator.py:120-133, [mergeArrays] for one array (IndexError for an empty old one). *)
Definition mergeArray {A} (old new : list A) : option (list A) :=
  match rev old with
  | [] => None
  | z :: _ => option_map (fun l => l ++ [z]) (interleave (removelast old) new)
  end.

(** (z + z') / 2: quad_estimator.py:80-81. *)
Definition midpoint (z z' : cplx) : cplx := ((re z + re z') / 2, (im z + im z') / 2)%Q.

Section Quad.
  (** [f_zero z]: context.f(z) == 0; [g z]: context.df(z) * z**order / context.f(z), real and
      imaginary part. *)
  Variable f_zero : cplx -> bool.
  Variable g : cplx -> R * R.
  Variable romb : list R -> R -> R.            (* scipy.integrate.romb(y, dx) *)
  Variable small : R -> bool.                  (* abs(x) < 1e-3 *)
  Variable precision : Z * Z.

  (** What the loop of calcMomentAlongLine works on. Code: quad_estimator.py:65-108. *)
  Record quad_state : Type := mkQuad {
    samplePts : nat;
    q_start : cplx; q_end : cplx;              (* the local variables zStart, zEnd *)
    q_z : list cplx; q_func : list (R * R);    (* zArr, funcArr *)
    q_real : R; q_imag : R;                    (* realResult, imagResult *)
    q_found : list cplx                        (* zeros put into the container so far *)
  }.

  (** quad_estimator.py:65-108. *)
  Inductive quad_run : Type :=
  | QuadDone (converged : bool) (s : quad_state)
  | QuadErr (e : exn)
  | QuadLoops.

  (** quad_estimator.py:65-73: the first arrays and results. *)
  Definition quad_init (distance : R) (fuel : nat) (zStart zEnd : cplx) : option quad_state :=
    match genFuncArr f_zero precision fuel zStart zEnd (2 ^ EXP_SAMPLE_POINTS + 1) with
    | None => None
    | Some (zArr, found) =>
        let func := map g zArr in
        let dx := (distance / INR (2 ^ EXP_SAMPLE_POINTS))%R in
        Some (mkQuad EXP_SAMPLE_POINTS zStart zEnd zArr func (romb (map fst func) dx) (romb (map snd func) dx) found)
    end.

  (** quad_estimator.py:74-108: the loop.  [fuel] bounds the rounds and the shifts. *)
  Fixpoint quad_loop (distance : R) (fuel : nat) (s : quad_state) : quad_run :=
    if Nat.leb (samplePts s) MAX_SAMPLE_POINTS then
      match fuel with
      | O => QuadLoops
      | S n =>
          let compare (zStart zEnd : cplx) (zArr : list cplx) (func : list (R * R)) (found : list cplx) :=
            let k := S (samplePts s) in
            let dx := (distance / INR (2 ^ k))%R in
            let newReal := romb (map fst func) dx in
            let newImag := romb (map snd func) dx in
            if small (newReal - q_real s)%R && small (newImag - q_imag s)%R
            then QuadDone true (mkQuad k zStart zEnd zArr func (q_real s) (q_imag s) found)
            else quad_loop distance n (mkQuad k zStart zEnd zArr func newReal newImag found) in
          if Nat.leb (EXP_SAMPLE_POINTS + 2) (samplePts s) then
            let len := List.length (q_z s) in
            let zStart := midpoint (nth 0 (q_z s) (0, 0)%Q) (nth 1 (q_z s) (0, 0)%Q) in
            let zEnd := midpoint (nth (len - 1) (q_z s) (0, 0)%Q) (nth (len - 2) (q_z s) (0, 0)%Q) in
            match genFuncArr f_zero precision n zStart zEnd (2 ^ samplePts s) with
            | None => QuadLoops
            | Some (newZ, found) =>
                match mergeArray (q_z s) newZ, mergeArray (q_func s) (map g newZ) with
                | Some zArr, Some func => compare zStart zEnd zArr func (q_found s ++ found)
                | _, _ => QuadErr ValueError
                end
            end
          else
            match genFuncArr f_zero precision n (q_start s) (q_end s) (2 ^ S (samplePts s) + 1) with
            | None => QuadLoops
            | Some (zArr, found) => compare (q_start s) (q_end s) zArr (map g zArr) (q_found s ++ found)
            end
      end
    else QuadDone false s.

  (** The whole loop, quad_estimator.py:74-108. *)
  Definition quad_iterate (distance : R) (fuel : nat) (zStart zEnd : cplx) : quad_run :=
    match quad_init distance fuel zStart zEnd with
    | None => QuadLoops
    | Some s => quad_loop distance fuel s
    end.
End Quad.

(** Complex arithmetic on pairs of reals. Code: quad_estimator.py:69, 86, 98. *)
Definition cR_mul (z w : R * R) : R * R := (fst z * fst w - snd z * snd w, fst z * snd w + snd z * fst w)%R.
(** Complex division, quad_estimator.py:69, 86, 98. *)
Definition cR_div (w z : R * R) : R * R :=
  let n := (fst z * fst z + snd z * snd z)%R in
  ((fst w * fst z + snd w * snd z) / n, (snd w * fst z - fst w * snd z) / n)%R.
(** zArr**order, quad_estimator.py:69, 86, 98. *)
Definition cR_pow (z : R * R) (k : nat) : R * R := Nat.iter k (cR_mul z) (1, 0)%R.
(** A sample point as a complex number, quad_estimator.py:66-69. *)
Definition to_cR (z : cplx) : R * R := (Q2R (re z), Q2R (im z)).

(** context.f(z) == 0: argument_estimator.py:119, 139. *)
Definition is_zero_R (z : R * R) : bool :=
  if Req_EM_T (fst z) 0 then (if Req_EM_T (snd z) 0 then true else false) else false.

(** abs(x) < 1e-3: quad_estimator.py:102-106. *)
Definition below_thousandth (x : R) : bool := if Rlt_dec (Rabs x) (1 / 1000) then true else false.

(** context.df(z) * z**order / context.f(z) Code: quad_estimator.py:69, 85-87, 98. *)
Definition integrand (f df : cplx -> R * R) (order : nat) (z : cplx) : R * R :=
  cR_div (cR_mul (df z) (cR_pow (to_cR z) order)) (f z).

(** abs(zEnd - zStart) Code: quad_estimator.py:70. *)
Definition distance_of (a b : cplx) : R :=
  sqrt (Rsqr (Q2R (re b - re a)) + Rsqr (Q2R (im b - im a))).

(** quad_estimator.py:40-113, [calcMomentAlongLine]; a zero sub-result distance = 0 divides by
    zero in the code (nan) and is out of the model's scope: theorems ask for zStart <> zEnd. *)
Inductive quad_result : Type :=
| QuadOk (zeros : list cplx) (value : R * R)
| QuadRaises (e : exn)
| QuadHangs.

(** quad_estimator.py:40-113. *)
Definition quad_line (romb : list R -> R -> R) (f : cplx -> R * R) (df : option (cplx -> R * R)) (precision : Z * Z)
    (fuel : nat) (order : nat) (zStart zEnd : cplx) : quad_result :=
  match df with
  | None => QuadRaises ValueError
  | Some df =>
      let d := distance_of zStart zEnd in
      match quad_iterate (fun z => is_zero_R (f z)) (integrand f df order) romb below_thousandth precision d fuel zStart zEnd with
      | QuadErr e => QuadRaises e
      | QuadLoops => QuadHangs
      | QuadDone _ s =>
          let factor := to_cR (re (q_end s) - re (q_start s), im (q_end s) - im (q_start s))%Q in
          let turned := (q_imag s, - q_real s)%R in      (* -1j * realResult + imagResult *)
          let v := cR_mul factor turned in
          QuadOk (q_found s) (fst v / d, snd v / d)%R
      end
  end.
