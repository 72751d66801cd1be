(** * The summation estimator: algorithms/estimators/sum_estimator.py and
    ArgumentEstimator.genFuncArr of argument_estimator.py *)
From Verif Require Import PyBase.
Open Scope Z_scope.

(** numpy.linspace(zStart, zEnd, size) for complex end points in exact arithmetic: the first
    entry is zStart, the last one (if size > 1) zEnd, both exactly. Code: argument_estimator.py:117. *)
Definition linpoint (a b : cplx) (steps i : nat) : cplx :=
  let t := (inject_Z (Z.of_nat i) / inject_Z (Z.of_nat steps))%Q in
  (re a + t * (re b - re a), im a + t * (im b - im a))%Q.
(** argument_estimator.py:117. *)
Definition linspaceC (a b : cplx) (size : nat) : list cplx :=
  match size with
  | O => []
  | S O => [a]
  | S (S m) => a :: map (linpoint a b (S m)) (seq 1 m) ++ [b]
  end.

(** [zArr += shift]: argument_estimator.py:135, 137. *)
Definition translate (s : cplx) (zs : list cplx) : list cplx :=
  map (fun z => (re z + re s, im z + im s)%Q) zs.

(** argument_estimator.py:116 and 133-136: 2 * 10^-precision[0] for vertical lines,
    2j * 10^-precision[1] for horizontal ones. *)
Definition line_shift (precision : Z * Z) (zStart zEnd : cplx) : cplx :=
  if Qeq_bool (im zStart) (im zEnd)
  then (0, 2 * pow10 (- snd precision))%Q
  else (2 * pow10 (- fst precision), 0)%Q.

(** argument_estimator.py:121-139: the while loop; result: the final zArr and the zeros put
    into the container.  None: not finished within [fuel] rounds. *)
Fixpoint shift_loop (f_zero : cplx -> bool) (s : cplx) (fuel : nat) (zArr : list cplx)
    : option (list cplx * list cplx) :=
  match fuel with
  | O => None
  | S n =>
      match filter f_zero zArr with
      | [] => Some (zArr, [])
      | zeros =>
          match shift_loop f_zero s n (translate s zArr) with
          | None => None
          | Some (z, found) => Some (z, zeros ++ found)
          end
      end
  end.

(** argument_estimator.py:110-141, [genFuncArr]; [f_zero z] is [context.f(z) == 0].  The
    function values themselves are those of the final zArr. *)
Definition genFuncArr (f_zero : cplx -> bool) (precision : Z * Z) (fuel : nat) (zStart zEnd : cplx) (size : nat)
    : option (list cplx * list cplx) :=
  shift_loop f_zero (line_shift precision zStart zEnd) fuel (linspaceC zStart zEnd size).

(** Consecutive differences: what a function of two neighbouring samples gives on an array. Code: sum_estimator.py:273-275, 306-307. *)
Fixpoint increments {A} (dphase : cplx -> cplx -> A) (zs : list cplx) : list A :=
  match zs with
  | z :: (z' :: _) as zs' => dphase z z' :: increments dphase zs'
  | _ => []
  end.

(** [numpy.where(...)[0][0]]: index of the first entry satisfying [p]. Code: sum_estimator.py:166, 229, 279, 284. *)
Fixpoint first_index {A} (p : A -> bool) (l : list A) : option nat :=
  match l with
  | [] => None
  | a :: l' => if p a then Some O else option_map S (first_index p l')
  end.
(** Number of entries satisfying [p] ([len(numpy.where(...)[0])]) and the last one's index. Code: sum_estimator.py:141, 160, 205, 223. *)
Definition count_where {A} (p : A -> bool) (l : list A) : nat := List.length (filter p l).
(** indices[-1], sum_estimator.py:147, 211. *)
Fixpoint last_index {A} (p : A -> bool) (l : list A) : option nat :=
  match l with
  | [] => None
  | a :: l' => match last_index p l' with
               | Some i => Some (S i)
               | None => if p a then Some O else None
               end
  end.

(** What an estimator call leads to. Code: sum_estimator.py:245-319. *)
Inductive gen (A : Type) : Type :=
| Gen (zs : list cplx) (phis : list A) (zeros : list cplx)   (* arrays and reported zeros *)
| GenErr (e : exn)
| GenLoops.                                                  (* fuel exhausted *)
Arguments Gen {A}. Arguments GenErr {A}. Arguments GenLoops {A}.

(** 'start' or 'end' in the keys, sum_estimator.py:20-26. *)
Inductive side : Type := StartSide | EndSide.
(** == of these markers, sum_estimator.py:136, 154, 200, 218. *)
Definition side_eqb (a b : side) : bool :=
  match a, b with StartSide, StartSide | EndSide, EndSide => true | _, _ => false end.

Section Sum.
  (** Phases: a type with 0, + and -. *)
  Context {A : Type} (azero : A) (aadd : A -> A -> A) (aopp : A -> A).
  Variable f_zero : cplx -> bool.            (* context.f(z) == 0 *)
  Variable dphase : cplx -> cplx -> A.       (* arctan2 of context.f(z') / context.f(z) *)
  Variable large : A -> bool.                (* abs(phi) >= self.deltaPhi *)
  Variable factor : nat -> A -> nat.         (* int(idx * Z_REFINE * abs(phi) / self.deltaPhi) *)
  Variable close : cplx -> cplx -> bool.     (* abs(z - z') < self.maxPrecision *)
  Variable numPts : nat.
  Variable precision : Z * Z.

  (** estimators/constants.py:21, sum_estimator.py:294. *)
  Definition MAX_Z_LENGTH : nat := 100.      (* estimators/constants.py *)
  Definition asum (l : list A) : A := fold_left aadd l azero.

  (** sum_estimator.py:280-317: the refinement loop.  [idx] counts the rounds. *)
  Fixpoint phi_loop (fuel idx : nat) (zArr : list cplx) (phiArr : list A) (zeros : list cplx) : gen A :=
    match first_index large phiArr with
    | None => Gen zArr phiArr zeros
    | Some k =>
        match fuel with
        | O => GenLoops
        | S n =>
            let zk := nth k zArr (0, 0)%Q in
            let zk1 := nth (S k) zArr (0, 0)%Q in
            if close zk zk1 then Gen zArr phiArr zeros
            else if Nat.ltb (MAX_Z_LENGTH * numPts) (List.length zArr) then Gen zArr phiArr zeros
            else
              match genFuncArr f_zero precision n zk zk1 (factor (S idx) (nth k phiArr azero)) with
              | None => GenLoops
              | Some (zRef, found) =>
                  phi_loop n (S idx)
                    (firstn (S k) zArr ++ removelast (tl zRef) ++ skipn (S k) zArr)
                    (firstn k phiArr ++ increments dphase zRef ++ skipn (S k) phiArr)
                    (zeros ++ found)
              end
        end
    end.

  (** sum_estimator.py:245-319, [genPhiArr]. *)
  Definition genPhiArr (fuel : nat) (order : Z) (zStart zEnd : cplx) : gen A :=
    if order =? 0 then
      match genFuncArr f_zero precision fuel zStart zEnd numPts with
      | None => GenLoops
      | Some (zArr, found) => phi_loop fuel O zArr (increments dphase zArr) found
      end
    else GenErr NotImplementedError.

  (** The internal caches (sum_estimator.py:20-26, 70-71): (coordinate, order) ->
      ((coordinate, "start"/"end") -> (points, phases)). *)
  Definition entry : Type := (list cplx * list A)%type.
  (** sum_estimator.py:20-26. *)
  Definition lcache : Type := list ((Q * Z) * list ((Q * side) * entry)).
  (** == of the outer keys, sum_estimator.py:135, 199. *)
  Definition okey_eqb (a b : Q * Z) : bool := Qeq_bool (fst a) (fst b) && Z.eqb (snd a) (snd b).
  (** == of the inner keys, sum_estimator.py:136, 154, 200, 218. *)
  Definition skey_eqb (a b : Q * side) : bool := Qeq_bool (fst a) (fst b) && side_eqb (snd a) (snd b).

  (** sum_estimator.py:321-344, [storeCache] (the outer key is present). *)
  Definition storeCache (z : Q) (order : Z) (start stop : Q) (v : entry) (c : lcache) : lcache :=
    match dget okey_eqb (z, order) c with
    | None => c   (* KeyError, cannot happen here *)
    | Some d => dset okey_eqb (z, order)
                  (dset skey_eqb (stop, EndSide) v (dset skey_eqb (start, StartSide) v d)) c
    end.

  (** What a line gives, sum_estimator.py:80-115. *)
  Inductive line_result : Type :=
  | LineOk (c : lcache) (zeros : list cplx) (phi : A)
  | LineErr (e : exn)
  | LineLoops.

  (** sum_estimator.py:117-243, [retrieveCachedHorizontal] / [retrieveCachedVertical].
      [coord] is np.real for horizontal lines and np.imag for vertical ones, [point t] the
      point of the line with this coordinate, [level] the fixed other coordinate.
      [end_test t1 t2] is the condition whose count decides about regenerating in the "end"
      case: [t1 <= coord z] for horizontal lines (line 160), but [coord z <= t2] for vertical
      ones (line 222).  In the vertical case [numpy.where(..)[0][0]] raises IndexError when no
      sample is >= t1. *)
  Definition retrieveCached (end_test : Q -> Q -> cplx -> bool) (coord : cplx -> Q) (point : Q -> cplx)
      (level : Q) (fuel : nat) (order : Z) (t1 t2 : Q) (c : lcache) : line_result :=
    let positive := Qltb t1 t2 in
    let s1 := if Qle_bool t1 t2 then t1 else t2 in
    let s2 := if Qle_bool t1 t2 then t2 else t1 in
    let sign (p : A) := if positive then p else aopp p in
    let generate (c' : lcache) :=
      match genPhiArr fuel order (point s1) (point s2) with
      | GenErr e => LineErr e
      | GenLoops => LineLoops
      | Gen zs phis found => LineOk (storeCache level order s1 s2 (zs, phis) c') found (sign (asum phis))
      end in
    let use (v : entry) := LineOk (storeCache level order s1 s2 v c) [] (sign (asum (snd v))) in
    match dget okey_eqb (level, order) c with
    | None => generate (dset okey_eqb (level, order) [] c)
    | Some d =>
        match dget skey_eqb (s1, StartSide) d with
        | Some v =>
            let below z := Qle_bool (coord z) s2 in
            if Nat.ltb (count_where below (fst v)) 3 then generate c
            else match last_index below (fst v) with
                 | Some m => use (firstn (S m) (fst v), firstn (S m) (snd v))
                 | None => LineErr IndexError
                 end
        | None =>
            match dget skey_eqb (s2, EndSide) d with
            | Some v =>
                if Nat.ltb (count_where (end_test s1 s2) (fst v)) 3 then generate c
                else match first_index (fun z => Qle_bool s1 (coord z)) (fst v) with
                     | Some m => use (skipn m (fst v), skipn m (snd v))
                     | None => LineErr IndexError
                     end
            | None => generate c
            end
        end
    end.

  (** sum_estimator.py:70-71. *)
  Record sum_state : Type := mkSum { horizontal : lcache; vertical : lcache }.
  (** sum_estimator.py:70-71: new estimator. *)
  Definition fresh_sum : sum_state := mkSum [] [].
End Sum.
Arguments entry A : clear implicits.
Arguments lcache A : clear implicits.
Arguments sum_state A : clear implicits.
Arguments line_result A : clear implicits.

(** sum_estimator.py:80-115, [calcMomentAlongLine]: horizontal lines first, then vertical ones. *)
Inductive sum_result (A : Type) : Type :=
| SumOk (zeros : list cplx) (phi : A)
| SumErr (e : exn)
| SumLoops.
Arguments SumOk {A}. Arguments SumErr {A}. Arguments SumLoops {A}.

(** sum_estimator.py:160. *)
Definition horizontal_end_test (s1 s2 : Q) (z : cplx) : bool := Qle_bool s1 (re z).
(** sum_estimator.py:223. *)
Definition vertical_end_test (s1 s2 : Q) (z : cplx) : bool := Qle_bool (im z) s2.

(** [calcMomentAlongLine] in a state of the two caches.  (genPhiArr raising leaves an empty
    inner dictionary behind in the miss case? No: the inner dictionary is created after the
    call, lines 175-178, so an exception leaves the caches as they were.) *)
Definition sumLine {A} (azero : A) aadd aopp f_zero dphase large factor close numPts precision
    (fuel : nat) (order : Z) (zStart zEnd : cplx) (st : sum_state A) : sum_state A * sum_result A :=
  let run end_test coord point level t1 t2 c :=
    retrieveCached azero aadd aopp f_zero dphase large factor close numPts precision
      end_test coord point level fuel order t1 t2 c in
  if Qeq_bool (im zStart) (im zEnd) then
    match run horizontal_end_test re (fun t => (t, im zStart)) (im zStart) (re zStart) (re zEnd) (horizontal st) with
    | LineOk c found phi => (mkSum c (vertical st), SumOk found phi)
    | LineErr e => (st, SumErr e)
    | LineLoops => (st, SumLoops)
    end
  else if Qeq_bool (re zStart) (re zEnd) then
    match run vertical_end_test im (fun t => (re zStart, t)) (re zStart) (im zStart) (im zEnd) (vertical st) with
    | LineOk c found phi => (mkSum (horizontal st) c, SumOk found phi)
    | LineErr e => (st, SumErr e)
    | LineLoops => (st, SumLoops)
    end
  else (st, SumErr ValueError).
