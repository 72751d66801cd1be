(** * Property C90: the phase sum in double precision *)
From Coq Require Import Reals Qreals.
From Verif Require Import PyBase Rounding_Model Refine_Model Zeros_Spec Float_Model Float_Spec Sum_Model Sum_Spec Arg_Spec Arg_Examples
  FloatSum_Model FloatSum_Spec FloatSum_Proofs FloatSum_Proofs3.
Open Scope R_scope.

(** ** C90 *)
(** However numpy groups and orders the additions: the computed sum of doubles is off by at
    most (1 + 2^-53)^(n-1) - 1 times the sum of the magnitudes. *)
Theorem C90_sum_error : forall l s, added_up l s -> (forall x, In x l -> is_double x) ->
  Rabs (Q2R s - total l) <= ((1 + unit_roundoff) ^ (List.length l - 1) - 1) * magnitudes l.
Proof. exact added_error. Qed.
Print Assumptions C90_sum_error.

(** The argument principle C69 with computed phases and computed sums: all four sides are
    answered, and the total is off by at most the tolerance for the number of phases that
    were added. *)
Theorem C90_rectangle :
  forall f zeros L dphi close n prec fuel eps eta r st fz phase,
  (0 < dphi)%Q -> is_double dphi -> (2 <= n)%nat -> (100 * n + 3 <= fuel)%nat -> (x1 r < x2 r)%Q -> (y1 r < y2 r)%Q ->
  factorised f zeros L r -> eta < PI -> well_sampled n eta L zeros r ->
  phases_within eps eta f r phase -> zeros_only f r fz ->
  fresh_level st true (y1 r) -> fresh_level st true (y2 r) -> fresh_level st false (x1 r) -> fresh_level st false (x2 r) ->
  exists st1 st2 st3 st4 t1 t2 t3 t4,
    fsum_line fz phase dphi close n prec fuel 0 (x1 r, y1 r) (x2 r, y1 r) st = (st1, SumOk [] t1) /\
    fsum_line fz phase dphi close n prec fuel 0 (x2 r, y1 r) (x2 r, y2 r) st1 = (st2, SumOk [] t2) /\
    fsum_line fz phase dphi close n prec fuel 0 (x2 r, y2 r) (x1 r, y2 r) st2 = (st3, SumOk [] t3) /\
    fsum_line fz phase dphi close n prec fuel 0 (x1 r, y2 r) (x1 r, y1 r) st3 = (st4, SumOk [] t4) /\
    (1 <= List.length t1 /\ 1 <= List.length t2 /\ 1 <= List.length t3 /\ 1 <= List.length t4)%nat /\
    forall p1 p2 p3 p4, float_sum t1 p1 -> float_sum t2 p2 -> float_sum t3 p3 -> float_sum t4 p4 ->
      Rabs (Q2R (float_total [p1; p2; p3; p4]) - 2 * PI * INR (count zeros r)) <=
      sum_tolerance (List.length (t1 ++ t2 ++ t3 ++ t4)) eps eta.
Proof. exact rounded_principle. Qed.
Print Assumptions C90_rectangle.

(** With up to 2^25 phases, each accurate to 2^-30, the total is within 3/5 of the true one. *)
Theorem C90_tolerance : forall n eps eta, INR n <= 2 ^ 25 -> 0 <= eps <= / 2 ^ 30 -> 0 <= eta < PI ->
  sum_tolerance n eps eta < 3 / 5.
Proof. exact tolerance_small. Qed.
Print Assumptions C90_tolerance.

(** Such a total decides like the true one, whatever the rounding of the threshold 0.8 * 2 pi
    and of the quotient by 2 pi: "no zeros here" exactly if there are none, and the reported
    order is the number of zeros. *)
Theorem C90_decisions : forall phi k c q, Rabs (phi - 2 * PI * INR k) < 3 / 5 ->
  Rabs (c - 8 / 10 * (2 * PI)) <= / 20 -> Rabs (Q2R q - phi / (2 * PI)) <= / 20 ->
  (phi < c <-> k = O) /\ round_half_even q = Z.of_nat k.
Proof. exact close_decides. Qed.
Print Assumptions C90_decisions.

(** z^2 (z - 3 - 3i) on the square [-1,1]^2, with phases rounded to 40 binary digits. *)
Example C90_nonvacuous : let f := zero_product [(0, 0); (0, 0); (3, 3)] in
  (0 < 1 # 64)%Q /\ is_double (1 # 64) /\ factorised f [(0, 0); (0, 0); (3, 3)] 0 square /\
  well_sampled 3 3 0 [(0, 0); (0, 0); (3, 3)] square /\ 3 < PI /\
  phases_within (/ 2 ^ 40) 3 f square (rounded_phase f) /\ zeros_only f square (vanishes f) /\
  count [(0, 0); (0, 0); (3, 3)] square = 2%nat /\
  (forall h l, fresh_level (mkSum [] [] : sum_state (list Q)) h l).
Proof. exact rounded_example. Qed.
