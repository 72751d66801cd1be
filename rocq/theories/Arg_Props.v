(** * Property C69: the argument principle *)
From Coq Require Import Reals Qreals.
From Verif Require Import PyBase Refine_Model Zeros_Spec Sum_Model Sum_Spec Arg_Spec Arg_Examples.
Open Scope R_scope.

(** ** C69 *)
(** Let f be, on the rectangle, a product of factors z - w times a function without zeros, and
    let no zero be too close to the border for the number of sample points.  On levels not
    yet in its cache the estimator answers all four sides without meeting a zero, and the
    answers add up to exactly 2 pi times the number of zeros inside, counted with
    multiplicity, for all thresholds and whatever it refines. *)
Theorem C69_argument_principle :
  forall f zeros L delta mp n prec fuel eta r st,
  0 < delta -> (2 <= n)%nat -> (100 * n + 3 <= fuel)%nat -> (x1 r < x2 r)%Q -> (y1 r < y2 r)%Q ->
  factorised f zeros L r -> eta < PI -> well_sampled n eta L zeros r ->
  level_free st true (y1 r) -> level_free st true (y2 r) -> level_free st false (x1 r) -> level_free st false (x2 r) ->
  exists st1 st2 st3 st4 p1 p2 p3 p4,
    sum_line f delta mp n prec fuel 0 (x1 r, y1 r) (x2 r, y1 r) st = (st1, SumOk [] p1) /\
    sum_line f delta mp n prec fuel 0 (x2 r, y1 r) (x2 r, y2 r) st1 = (st2, SumOk [] p2) /\
    sum_line f delta mp n prec fuel 0 (x2 r, y2 r) (x1 r, y2 r) st2 = (st3, SumOk [] p3) /\
    sum_line f delta mp n prec fuel 0 (x1 r, y2 r) (x1 r, y1 r) st3 = (st4, SumOk [] p4) /\
    p1 + p2 + p3 + p4 = 2 * PI * INR (count zeros r).
Proof. exact argument_principle. Qed.
Print Assumptions C69_argument_principle.

(** z^2 (z - 3 - 3i) on the square [-1,1]^2, three samples per side: two zeros. *)
Example C69_nonvacuous :
  factorised (zero_product [(0, 0); (0, 0); (3, 3)]) [(0, 0); (0, 0); (3, 3)] 0 square /\
  well_sampled 3 3 0 [(0, 0); (0, 0); (3, 3)] square /\ 3 < PI /\ count [(0, 0); (0, 0); (3, 3)] square = 2%nat.
Proof.
  exact (conj (polynomial_factorised three_zeros square) (conj square_sampled (conj PI_3 square_count))).
Qed.

(** Not only polynomials: z^2 (z - 3 - 3i) exp z. *)
Example C69_nonvacuous_exp :
  factorised (fun z => cmulR (zero_product [(0, 0); (0, 0); (3, 3)] z) (exponential z)) [(0, 0); (0, 0); (3, 3)] 1 square.
Proof. exact (exponential_factorised three_zeros square). Qed.
