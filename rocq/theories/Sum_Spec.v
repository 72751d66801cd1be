(** * Specification of the summation estimator (C36-C43, C64) *)
From Coq Require Import Reals.
From Verif Require Import PyBase Sum_Model.
Open Scope Z_scope.

(** ** Angles *)
Definition cR : Type := (R * R)%type.
Definition polar (z : cR) (r a : R) : Prop := (0 < r /\ fst z = r * cos a /\ snd z = r * sin a)%R.
Definition nonzero (z : cR) : Prop := z <> (0, 0)%R.
(** w / z *)
Definition quotient (w z : cR) : cR :=
  let n := (fst z * fst z + snd z * snd z)%R in
  ((fst w * fst z + snd w * snd z) / n, (snd w * fst z - fst w * snd z) / n)%R.
(** numpy.arctan2(z.imag, z.real) (no signed zeros) *)
Definition arctan2 (z : cR) : R :=
  let (x, y) := z in
  if Rlt_dec 0 x then atan (y / x)
  else if Rlt_dec x 0 then (if Rle_dec 0 y then atan (y / x) + PI else atan (y / x) - PI)%R
  else if Rlt_dec 0 y then (PI / 2)%R else if Rlt_dec y 0 then (- (PI / 2))%R else 0%R.
(** Phase change between two samples of f. *)
Definition phase_step (f : cplx -> cR) (z z' : cplx) : R := arctan2 (quotient (f z') (f z)).
Definition vanishes (f : cplx -> cR) (z : cplx) : bool :=
  if Req_EM_T (fst (f z)) 0 then (if Req_EM_T (snd (f z)) 0 then true else false) else false.
(** abs(phi) >= deltaPhi and int(idx * Z_REFINE * abs(phi) / deltaPhi), Z_REFINE = 100 *)
Definition at_least (deltaPhi : R) (p : R) : bool := if Rle_dec deltaPhi (Rabs p) then true else false.
Definition refinement (deltaPhi : R) (idx : nat) (p : R) : nat :=
  Z.to_nat (Int_part (INR idx * 100 * Rabs p / deltaPhi)).
(** abs(z - z') < maxPrecision *)
Definition nearer (maxPrecision : Q) (z z' : cplx) : bool :=
  Qltb ((re z - re z') * (re z - re z') + (im z - im z') * (im z - im z')) (maxPrecision * maxPrecision).

(** The estimator of a function f, as the code runs it. *)
Definition sum_line (f : cplx -> cR) (deltaPhi : R) (maxPrecision : Q) (numPts : nat) (precision : Z * Z)
    (fuel : nat) (order : Z) (zStart zEnd : cplx) (st : sum_state R) : sum_state R * sum_result R :=
  sumLine 0%R Rplus Ropp (vanishes f) (phase_step f) (at_least deltaPhi) (refinement deltaPhi)
    (nearer maxPrecision) numPts precision fuel order zStart zEnd st.

(** The same with rational phases given by any function, for examples that compute. *)
Definition sum_lineQ (f_zero : cplx -> bool) (dphase : cplx -> cplx -> Q) (deltaPhi : Q) (maxPrecision : Q)
    (numPts : nat) (precision : Z * Z)
    (fuel : nat) (order : Z) (zStart zEnd : cplx) (st : sum_state Q) : sum_state Q * sum_result Q :=
  sumLine 0%Q (fun a b => Qred (a + b)) Qopp f_zero dphase (fun p => Qle_bool deltaPhi (Qabs p))
    (fun idx p => Z.to_nat (Qfloor (inject_Z (Z.of_nat idx) * 100 * Qabs p / deltaPhi)))
    (nearer maxPrecision) numPts precision fuel order zStart zEnd st.

(** Sum of reals. *)
Definition Rsum (l : list R) : R := fold_left Rplus l 0%R.

(** Consecutive entries are related. *)
Fixpoint chain {A} (P : A -> A -> Prop) (l : list A) : Prop :=
  match l with
  | a :: (b :: _) as l' => P a b /\ chain P l'
  | _ => True
  end.

(** Point number i of N + 1 points dividing the line from a to b evenly, and all of them. *)
Definition point_at (a b : cplx) (N i : nat) : cplx :=
  let t := (inject_Z (Z.of_nat i) / inject_Z (Z.of_nat N))%Q in
  (re a + t * (re b - re a), im a + t * (im b - im a))%Q.
Definition uniform (a b : cplx) (N : nat) : list cplx := map (point_at a b N) (seq 0 (S N)).

(** The array after [n] shifts. *)
Definition shifted (s : cplx) (n : nat) (zs : list cplx) : list cplx := Nat.iter n (translate s) zs.

(** Any sequence of requests (each with its own function and settings). *)
Record request : Type := mkRequest {
  rq_f : cplx -> cR; rq_delta : R; rq_maxprec : Q; rq_numPts : nat; rq_precision : Z * Z;
  rq_fuel : nat; rq_order : Z; rq_start : cplx; rq_end : cplx }.
Definition serve (st : sum_state R) (q : request) : sum_state R :=
  fst (sum_line (rq_f q) (rq_delta q) (rq_maxprec q) (rq_numPts q) (rq_precision q)
        (rq_fuel q) (rq_order q) (rq_start q) (rq_end q) st).
Definition served (h : list request) : sum_state R := fold_left serve h fresh_sum.

(** Phase changes along a sequence of values. *)
Fixpoint steps (vs : list cR) : list R :=
  match vs with
  | v :: (w :: _) as vs' => arctan2 (quotient w v) :: steps vs'
  | _ => []
  end.

(** Neighbours on an axis-parallel line: same level, coordinate increasing by at most h. *)
Definition on_line (coord other : cplx -> Q) (level h : Q) (z z' : cplx) : Prop :=
  (other z == level /\ other z' == level /\ 0 < coord z' - coord z /\ coord z' - coord z <= h)%Q.

(** What a line cache holds for a key. *)
Definition cached {A} (c : lcache A) (level : Q) (order : Z) (t : Q) (s : side) : option (entry A) :=
  match dget okey_eqb (level, order) c with
  | None => None
  | Some d => dget skey_eqb (t, s) d
  end.

(** The negated answer. *)
Definition negated (r : sum_result R) : sum_result R :=
  match r with SumOk z p => SumOk z (- p)%R | r => r end.

Definition parallel (a b : cplx) : Prop := (im a == im b)%Q \/ (re a == re b)%Q.

(** No line on this horizontal (vertical) level is cached. *)
Definition level_free (st : sum_state R) (horiz : bool) (level : Q) : Prop :=
  dget okey_eqb (level, 0) (if horiz then horizontal st else vertical st) = None.

(** The point with coordinate t on a horizontal (vertical) line, and coordinates along and
    across such a line. *)
Definition mkpoint (horiz : bool) (level t : Q) : cplx := if horiz then (t, level) else (level, t).
Definition coord_of (horiz : bool) : cplx -> Q := if horiz then re else im.
Definition other_of (horiz : bool) : cplx -> Q := if horiz then im else re.

(** [genPhiArr] of the estimator of f. *)
Definition gen_phi (f : cplx -> cR) (deltaPhi : R) (maxPrecision : Q) (numPts : nat) (precision : Z * Z)
    (fuel : nat) (order : Z) (zStart zEnd : cplx) : gen R :=
  genPhiArr 0%R (vanishes f) (phase_step f) (at_least deltaPhi) (refinement deltaPhi)
    (nearer maxPrecision) numPts precision fuel order zStart zEnd.
