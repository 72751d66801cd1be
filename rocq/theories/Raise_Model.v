(** * Target functions that raise exceptions: the estimators' line integrals
    (algorithms/estimators/argument_estimator.py, sum_estimator.py, quad_estimator.py)
    when a call [context.f(zArr)] or [context.df(zArr)] may raise instead of returning.
    The functions below are those of Sum_Model.v, Quad_Model.v, Whole_Model.v and
    Qsearch_Model.v with these calls made explicit. *)
From Coq Require Import Reals Qreals.
From Verif Require Import PyBase Refine_Model Cache_Model Sum_Model Sum_Spec Quad_Model Whole_Model Qsearch_Model.
Open Scope Z_scope.

(** A call returns, or raises; roots put into the container before stay there (argument_estimator.py:127-132). *)
Inductive attempt (A : Type) : Type :=
| Returns (a : A)
| Fails (found : list cplx) (e : exn).
Arguments Returns {A} a.
Arguments Fails {A} found e.

(** argument_estimator.py:118-139: the while loop.  [raises zArr] is the exception, if any,
    with which the call [context.f(zArr)] ends. *)
Fixpoint raising_shift_loop (raises : list cplx -> option exn) (f_zero : cplx -> bool) (s : cplx) (fuel : nat)
    (zArr : list cplx) : attempt (option (list cplx * list cplx)) :=
  match fuel with
  | O => Returns None
  | S n =>
      match raises zArr with
      | Some e => Fails [] e
      | None =>
          match filter f_zero zArr with
          | [] => Returns (Some (zArr, []))
          | zeros =>
              match raising_shift_loop raises f_zero s n (translate s zArr) with
              | Fails found e => Fails (zeros ++ found) e
              | Returns None => Returns None
              | Returns (Some (z, found)) => Returns (Some (z, zeros ++ found))
              end
          end
      end
  end.

(** argument_estimator.py:110-141, [genFuncArr]. *)
Definition raising_genFuncArr (raises : list cplx -> option exn) (f_zero : cplx -> bool) (precision : Z * Z)
    (fuel : nat) (zStart zEnd : cplx) (size : nat) : attempt (option (list cplx * list cplx)) :=
  raising_shift_loop raises f_zero (line_shift precision zStart zEnd) fuel (linspaceC zStart zEnd size).

Section RaisingSum.
  Context {A : Type} (azero : A) (aadd : A -> A -> A) (aopp : A -> A).
  Variable raises : list cplx -> option exn.
  Variable f_zero : cplx -> bool.
  Variable dphase : cplx -> cplx -> A.
  Variable large : A -> bool.
  Variable factor : nat -> A -> nat.
  Variable close : cplx -> cplx -> bool.
  Variable numPts : nat.
  Variable precision : Z * Z.

  (** sum_estimator.py:280-317: the refinement loop. *)
  Fixpoint raising_phi_loop (fuel idx : nat) (zArr : list cplx) (phiArr : list A) (zeros : list cplx) : attempt (gen A) :=
    match first_index large phiArr with
    | None => Returns (Gen zArr phiArr zeros)
    | Some k =>
        match fuel with
        | O => Returns GenLoops
        | S n =>
            let zk := nth k zArr (0, 0)%Q in
            let zk1 := nth (S k) zArr (0, 0)%Q in
            if close zk zk1 then Returns (Gen zArr phiArr zeros)
            else if Nat.ltb (MAX_Z_LENGTH * numPts) (List.length zArr) then Returns (Gen zArr phiArr zeros)
            else
              match raising_genFuncArr raises f_zero precision n zk zk1 (factor (S idx) (nth k phiArr azero)) with
              | Fails found e => Fails (zeros ++ found) e
              | Returns None => Returns GenLoops
              | Returns (Some (zRef, found)) =>
                  raising_phi_loop n (S idx)
                    (firstn (S k) zArr ++ removelast (tl zRef) ++ skipn (S k) zArr)
                    (firstn k phiArr ++ increments dphase zRef ++ skipn (S k) phiArr)
                    (zeros ++ found)
              end
        end
    end.

  (** sum_estimator.py:245-319, [genPhiArr]. *)
  Definition raising_genPhiArr (fuel : nat) (order : Z) (zStart zEnd : cplx) : attempt (gen A) :=
    if order =? 0 then
      match raising_genFuncArr raises f_zero precision fuel zStart zEnd numPts with
      | Fails found e => Fails found e
      | Returns None => Returns GenLoops
      | Returns (Some (zArr, found)) => raising_phi_loop fuel O zArr (increments dphase zArr) found
      end
    else Returns (GenErr NotImplementedError).

  (** sum_estimator.py:117-243.  genPhiArr comes before every change of the cache, so an
      exception leaves the cache as it was (lines 142, 172, 175-178, 204, 235, 238-241). *)
  Definition raising_retrieveCached (end_test : Q -> Q -> cplx -> bool) (coord : cplx -> Q) (point : Q -> cplx)
      (level : Q) (fuel : nat) (order : Z) (t1 t2 : Q) (c : lcache A) : attempt (line_result A) :=
    let positive := Qltb t1 t2 in
    let s1 := if Qle_bool t1 t2 then t1 else t2 in
    let s2 := if Qle_bool t1 t2 then t2 else t1 in
    let sign (p : A) := if positive then p else aopp p in
    let generate (c' : lcache A) :=
      match raising_genPhiArr fuel order (point s1) (point s2) with
      | Fails found e => Fails found e
      | Returns (GenErr e) => Returns (LineErr e)
      | Returns GenLoops => Returns LineLoops
      | Returns (Gen zs phis found) =>
          Returns (LineOk (storeCache level order s1 s2 (zs, phis) c') found (sign (asum azero aadd phis)))
      end in
    let use (v : entry A) :=
      Returns (LineOk (storeCache level order s1 s2 v c) [] (sign (asum azero aadd (snd v)))) in
    match dget okey_eqb (level, order) c with
    | None => generate (dset okey_eqb (level, order) [] c)
    | Some d =>
        match dget skey_eqb (s1, StartSide) d with
        | Some v =>
            let below z := Qle_bool (coord z) s2 in
            if Nat.ltb (count_where below (fst v)) 3 then generate c
            else match last_index below (fst v) with
                 | Some m => use (firstn (S m) (fst v), firstn (S m) (snd v))
                 | None => Returns (LineErr IndexError)
                 end
        | None =>
            match dget skey_eqb (s2, EndSide) d with
            | Some v =>
                if Nat.ltb (count_where (end_test s1 s2) (fst v)) 3 then generate c
                else match first_index (fun z => Qle_bool s1 (coord z)) (fst v) with
                     | Some m => use (skipn m (fst v), skipn m (snd v))
                     | None => Returns (LineErr IndexError)
                     end
            | None => generate c
            end
        end
    end.

  (** sum_estimator.py:80-115, [calcMomentAlongLine]. *)
  Definition raising_sumLine (fuel : nat) (order : Z) (zStart zEnd : cplx) (st : sum_state A)
      : sum_state A * attempt (sum_result A) :=
    if Qeq_bool (im zStart) (im zEnd) then
      match raising_retrieveCached horizontal_end_test re (fun t => (t, im zStart)) (im zStart) fuel order
              (re zStart) (re zEnd) (horizontal st) with
      | Fails found e => (st, Fails found e)
      | Returns (LineOk c found phi) => (mkSum c (vertical st), Returns (SumOk found phi))
      | Returns (LineErr e) => (st, Returns (SumErr e))
      | Returns LineLoops => (st, Returns SumLoops)
      end
    else if Qeq_bool (re zStart) (re zEnd) then
      match raising_retrieveCached vertical_end_test im (fun t => (re zStart, t)) (re zStart) fuel order
              (im zStart) (im zEnd) (vertical st) with
      | Fails found e => (st, Fails found e)
      | Returns (LineOk c found phi) => (mkSum (horizontal st) c, Returns (SumOk found phi))
      | Returns (LineErr e) => (st, Returns (SumErr e))
      | Returns LineLoops => (st, Returns SumLoops)
      end
    else (st, Returns (SumErr ValueError)).
End RaisingSum.

(** sum_estimator.py:80-115 as the line method of argument_estimator.py:27-79 (see
    [turn_line] in Whole_Model.v).  [f] gives the values where the call returns. *)
Definition raising_turn_line (turns : R -> Q) (f : cplx -> cR) (raises : list cplx -> option exn)
    (deltaPhi : R) (maxPrecision : Q) (numPts : nat)
    (precision : Z * Z) (fuel : nat) (order : Z) (zStart zEnd : cplx) (st : sum_state R)
    : sum_state R * list cplx * res cplx :=
  match raising_sumLine 0%R Rplus Ropp raises (vanishes f) (phase_step f) (at_least deltaPhi) (refinement deltaPhi)
          (nearer maxPrecision) numPts precision fuel order zStart zEnd st with
  | (st', Returns (SumOk found p)) => (st', found, Ok (turns p, 0%Q))
  | (st', Returns (SumErr e)) => (st', [], Err e)
  | (st', Returns SumLoops) => (st', [], Err RuntimeError)
  | (st', Fails found e) => (st', found, Err e)
  end.

(** sum_estimator.py:80-115 and argument_estimator.py:27-79: the estimator of a search. *)
Definition raising_sum_env (turns : R -> Q) (f : cplx -> cR) (raises : list cplx -> option exn)
    (deltaPhi : R) (maxPrecision : Q) (numPts : nat)
    (precision : Z * Z) (fuel : nat) (debug : bool)
    (secant : cplx -> cplx -> res cplx) (newton : cplx -> res cplx)
    (polyroots : list cplx -> res (list cplx)) (has_df progress : bool) : env (ecache * sum_state R) :=
  cached_env (raising_turn_line turns f raises deltaPhi maxPrecision numPts precision fuel) debug
    secant newton polyroots has_df precision progress.

Section RaisingQuad.
  Variables (raises raises_df : list cplx -> option exn).
  Variable f_zero : cplx -> bool.
  Variable g : cplx -> R * R.
  Variable romb : list R -> R -> R.
  Variable small : R -> bool.
  Variable precision : Z * Z.

  (** genFuncArr followed by context.df(zArr): quad_estimator.py:66-69, 82-87, 95-98. *)
  Definition raising_samples (fuel : nat) (zStart zEnd : cplx) (size : nat) : attempt (option (list cplx * list cplx)) :=
    match raising_genFuncArr raises f_zero precision fuel zStart zEnd size with
    | Returns (Some (zArr, found)) =>
        match raises_df zArr with
        | Some e => Fails found e
        | None => Returns (Some (zArr, found))
        end
    | r => r
    end.

  (** quad_estimator.py:65-73: the first arrays and results. *)
  Definition raising_quad_init (distance : R) (fuel : nat) (zStart zEnd : cplx) : attempt (option quad_state) :=
    match raising_samples fuel zStart zEnd (2 ^ EXP_SAMPLE_POINTS + 1) with
    | Fails found e => Fails found e
    | Returns None => Returns None
    | Returns (Some (zArr, found)) =>
        let func := map g zArr in
        let dx := (distance / INR (2 ^ EXP_SAMPLE_POINTS))%R in
        Returns (Some (mkQuad EXP_SAMPLE_POINTS zStart zEnd zArr func (romb (map fst func) dx) (romb (map snd func) dx) found))
    end.

  (** quad_estimator.py:74-108: the loop. *)
  Fixpoint raising_quad_loop (distance : R) (fuel : nat) (s : quad_state) : attempt quad_run :=
    if Nat.leb (samplePts s) MAX_SAMPLE_POINTS then
      match fuel with
      | O => Returns QuadLoops
      | S n =>
          let compare (zStart zEnd : cplx) (zArr : list cplx) (func : list (R * R)) (found : list cplx) :=
            let k := S (samplePts s) in
            let dx := (distance / INR (2 ^ k))%R in
            let newReal := romb (map fst func) dx in
            let newImag := romb (map snd func) dx in
            if small (newReal - q_real s)%R && small (newImag - q_imag s)%R
            then Returns (QuadDone true (mkQuad k zStart zEnd zArr func (q_real s) (q_imag s) found))
            else raising_quad_loop distance n (mkQuad k zStart zEnd zArr func newReal newImag found) in
          if Nat.leb (EXP_SAMPLE_POINTS + 2) (samplePts s) then
            let len := List.length (q_z s) in
            let zStart := midpoint (nth 0 (q_z s) (0, 0)%Q) (nth 1 (q_z s) (0, 0)%Q) in
            let zEnd := midpoint (nth (len - 1) (q_z s) (0, 0)%Q) (nth (len - 2) (q_z s) (0, 0)%Q) in
            match raising_samples n zStart zEnd (2 ^ samplePts s) with
            | Fails found e => Fails (q_found s ++ found) e
            | Returns None => Returns QuadLoops
            | Returns (Some (newZ, found)) =>
                match mergeArray (q_z s) newZ, mergeArray (q_func s) (map g newZ) with
                | Some zArr, Some func => compare zStart zEnd zArr func (q_found s ++ found)
                | _, _ => Returns (QuadErr ValueError)
                end
            end
          else
            match raising_samples n (q_start s) (q_end s) (2 ^ S (samplePts s) + 1) with
            | Fails found e => Fails (q_found s ++ found) e
            | Returns None => Returns QuadLoops
            | Returns (Some (zArr, found)) => compare (q_start s) (q_end s) zArr (map g zArr) (q_found s ++ found)
            end
      end
    else Returns (QuadDone false s).

  (** quad_estimator.py:74-108. *)
  Definition raising_quad_iterate (distance : R) (fuel : nat) (zStart zEnd : cplx) : attempt quad_run :=
    match raising_quad_init distance fuel zStart zEnd with
    | Fails found e => Fails found e
    | Returns None => Returns QuadLoops
    | Returns (Some s) => raising_quad_loop distance fuel s
    end.
End RaisingQuad.

(** quad_estimator.py:40-113, [calcMomentAlongLine], as the line method of
    argument_estimator.py:27-79 (see [quad_turn_line] in Qsearch_Model.v). *)
Definition raising_quad_turn_line (turns : R -> Q) (romb : list R -> R -> R) (f : cplx -> R * R)
    (df : option (cplx -> R * R)) (raises raises_df : list cplx -> option exn)
    (precision : Z * Z) (fuel : nat) (order : Z) (zStart zEnd : cplx) (u : unit) : unit * list cplx * res cplx :=
  match df with
  | None => (u, [], Err ValueError)
  | Some df =>
      let d := distance_of zStart zEnd in
      match raising_quad_iterate raises raises_df (fun z => is_zero_R (f z)) (integrand f df (Z.to_nat order))
              romb below_thousandth precision d fuel zStart zEnd with
      | Fails found e => (u, found, Err e)
      | Returns (QuadErr e) => (u, [], Err e)
      | Returns QuadLoops => (u, [], Err RuntimeError)
      | Returns (QuadDone _ s) =>
          let factor := to_cR (re (q_end s) - re (q_start s), im (q_end s) - im (q_start s))%Q in
          let turned := (q_imag s, - q_real s)%R in
          let v := cR_mul factor turned in
          (u, q_found s, Ok (turns (fst v / d)%R, turns (snd v / d)%R))
      end
  end.

(** quad_estimator.py:40-113 and argument_estimator.py:27-79: the estimator of a search. *)
Definition raising_quad_env (turns : R -> Q) (romb : list R -> R -> R) (f : cplx -> R * R)
    (df : option (cplx -> R * R)) (raises raises_df : list cplx -> option exn)
    (precision : Z * Z) (fuel : nat) (debug : bool)
    (secant : cplx -> cplx -> res cplx) (newton : cplx -> res cplx)
    (polyroots : list cplx -> res (list cplx)) (has_df progress : bool) : env (ecache * unit) :=
  cached_env (raising_quad_turn_line turns romb f df raises raises_df precision fuel) debug
    secant newton polyroots has_df precision progress.
