(** * The summation estimator in double precision: algorithms/estimators/sum_estimator.py and
    calcMoment of argument_estimator.py *)
From Coq Require Import Qround Permutation.
From Verif Require Import PyBase Float_Model Sum_Model.
Open Scope Z_scope.

(** int(idx * Z_REFINE * abs(phi) / self.deltaPhi) with the product and the quotient rounded
    (the product of the two ints is exact). Code: sum_estimator.py:298-300. *)
Definition ffactor (deltaPhi : Q) (idx : nat) (p : Q) : nat :=
  Z.to_nat (Qfloor (rnd64 (rnd64 (inject_Z (Z.of_nat idx * 100) * Qabs p) / deltaPhi))).

(** sum_estimator.py:80-319 (calcMomentAlongLine with the internal caches and the refinement of
    genPhiArr), with the phases that were computed: [phase z z'] is
    numpy.arctan2 of context.f(z') / context.f(z) with all its rounding errors and [f_zero z] is
    the outcome of the computed test context.f(z) == 0.  Rounding of the sample points
    themselves (numpy.linspace) is not followed: their positions are exact here and the effect
    is part of what [phase] may differ from the true phase.  The answer is the array whose
    entries are added up, each with its sign: the phases of Sum_Model are one-element arrays
    that are concatenated instead of being added. *)
Definition fsum_line (f_zero : cplx -> bool) (phase : cplx -> cplx -> Q) (deltaPhi : Q)
    (close : cplx -> cplx -> bool) (numPts : nat) (precision : Z * Z) (fuel : nat) (order : Z)
    (zStart zEnd : cplx) (st : sum_state (list Q)) : sum_state (list Q) * sum_result (list Q) :=
  sumLine [] (@app Q) (map Qopp) f_zero (fun z z' => [phase z z'])
    (fun l => Qle_bool deltaPhi (Qabs (hd 0%Q l))) (fun idx l => ffactor deltaPhi idx (hd 0%Q l))
    close numPts precision fuel order zStart zEnd st.

(** newValue[1].sum(): numpy adds the entries pairwise in blocks; here any order and any
    grouping is allowed.  (The sign is put in front of the sum in the code; as rounding is
    symmetric that is the same as adding up the negated entries.)  Code: sum_estimator.py:153,
    172, 180, 217, 235, 243. *)
Inductive added_up : list Q -> Q -> Prop :=
| added_one x : added_up [x] x
| added_two l1 l2 l s1 s2 : added_up l1 s1 -> added_up l2 s2 -> Permutation (l1 ++ l2) l ->
    added_up l (rnd64 (s1 + s2)).
(** The sum of an empty array is 0.0. Code: sum_estimator.py:153. *)
Definition float_sum (l : list Q) (s : Q) : Prop := (l = [] /\ s = 0%Q) \/ added_up l s.

(** phi = 0, then phi += entry for the four sides. Code: argument_estimator.py:57-79. *)
Definition float_total (answers : list Q) : Q := fold_left (fun phi p => rnd64 (phi + p)) answers 0%Q.
