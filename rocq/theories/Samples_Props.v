(** * Property C91: how many points a request samples, and what the caches hold *)
From Coq Require Import Reals Qreals.
From Verif Require Import PyBase Rounding_Model Refine_Model Zeros_Spec Float_Model Float_Spec Sum_Model Sum_Spec Sum_Proofs5 Sum_Examples Arg_Spec Arg_Examples
  FloatSum_Model FloatSum_Spec FloatSum_Proofs3 Samples_Spec Samples_Proofs Samples_Proofs2 Samples_Proofs3.
Open Scope R_scope.

(** ** C91 *)
(** Whatever the function: a line that is answered was sampled at no more than
    100 n + 100 (k + 1) pi / delta points, k^2 <= 2 n. *)
Theorem C91_samples : forall f delta mp n prec fuel a b zs phis zeros, 0 < delta -> (1 <= n)%nat ->
  gen_phi f delta mp n prec fuel 0 a b = Gen zs phis zeros -> sample_limit n delta (List.length zs).
Proof. exact gen_phi_samples. Qed.
Print Assumptions C91_samples.

(** With the defaults, 6500 points and threshold 0.01: fewer than 4.65 million. *)
Theorem C91_numbers : forall n delta c, INR n <= 6500 -> / 100 <= delta -> sample_limit n delta c -> INR c <= 4650000.
Proof. exact default_numbers. Qed.
Print Assumptions C91_numbers.

(** Without zeros on the segment about sqrt(2 n) rounds of refinement are enough: the array
    grows by more and more points. *)
Theorem C91_rounds : forall f delta mp n prec fuel K a b, 0 < delta -> (1 <= n)%nat -> (2 * n < K * K)%nat -> (K + 2 <= fuel)%nat ->
  (forall t, (0 <= t)%Q -> (t <= 1)%Q -> nonzero (f (re a + t * (re b - re a), im a + t * (im b - im a))%Q)) ->
  (forall z z', ceq z z' -> f z = f z') ->
  gen_phi f delta mp n prec fuel 0 a b <> GenLoops.
Proof. exact gen_phi_rounds. Qed.
Print Assumptions C91_rounds.

(** After any requests with the same settings, for any functions and failed ones included: at
    most one cached line and two arrays per request, no array longer than a line may be. *)
Theorem C91_memory : forall h delta n, 0 < delta -> (1 <= n)%nat -> same_settings delta n h ->
  (stored_levels (served h) <= List.length h)%nat /\ (stored_arrays (served h) <= 2 * List.length h)%nat /\
  (forall horiz level order t s zs phis,
     cached (if horiz : bool then horizontal (served h) else vertical (served h)) level order t s = Some (zs, phis) ->
     sample_limit n delta (List.length zs) /\ (List.length phis <= List.length zs)%nat).
Proof.
  intros h delta n HD Hn HS. destruct (served_small h delta n HD Hn HS) as (A & B & C & D).
  split; [exact C|]. split; [exact D|]. intros [|] level order t s zs phis E; [exact (A _ _ _ _ _ E)|exact (B _ _ _ _ _ E)].
Qed.
Print Assumptions C91_memory.

(** Double precision (C90) with at most 6500 initial points and a threshold of at least 0.01:
    no more than 2^25 phases are added up around a rectangle, and so the decisions are
    those of the exact total. *)
Theorem C91_default :
  forall f zeros L dphi close n prec fuel eps eta r st fz phase,
  (1 # 100 <= dphi)%Q -> is_double dphi -> (2 <= n)%nat -> INR n <= 6500 -> (100 * n + 3 <= fuel)%nat -> (x1 r < x2 r)%Q -> (y1 r < y2 r)%Q ->
  factorised f zeros L r -> 0 <= eta < PI -> well_sampled n eta L zeros r ->
  0 <= eps <= / 2 ^ 30 -> phases_within eps eta f r phase -> (forall z z', (Qabs (phase z z') <= 4)%Q) -> zeros_only f r fz ->
  fresh_level st true (y1 r) -> fresh_level st true (y2 r) -> fresh_level st false (x1 r) -> fresh_level st false (x2 r) ->
  exists st1 st2 st3 st4 t1 t2 t3 t4,
    fsum_line fz phase dphi close n prec fuel 0 (x1 r, y1 r) (x2 r, y1 r) st = (st1, SumOk [] t1) /\
    fsum_line fz phase dphi close n prec fuel 0 (x2 r, y1 r) (x2 r, y2 r) st1 = (st2, SumOk [] t2) /\
    fsum_line fz phase dphi close n prec fuel 0 (x2 r, y2 r) (x1 r, y2 r) st2 = (st3, SumOk [] t3) /\
    fsum_line fz phase dphi close n prec fuel 0 (x1 r, y2 r) (x1 r, y1 r) st3 = (st4, SumOk [] t4) /\
    INR (List.length (t1 ++ t2 ++ t3 ++ t4)) <= 2 ^ 25 /\
    forall p1 p2 p3 p4 c q, float_sum t1 p1 -> float_sum t2 p2 -> float_sum t3 p3 -> float_sum t4 p4 ->
      let phi := Q2R (float_total [p1; p2; p3; p4]) in
      Rabs (c - 8 / 10 * (2 * PI)) <= / 20 -> Rabs (Q2R q - phi / (2 * PI)) <= / 20 ->
      (phi < c <-> count zeros r = O) /\ round_half_even q = Z.of_nat (count zeros r).
Proof. exact default_rectangle. Qed.
Print Assumptions C91_default.

(** z^2 (z - 3 - 3i) on the square [-1,1]^2, with phases rounded to 40 binary digits. *)
Example C91_nonvacuous : let f := zero_product three_zeros in
  (1 # 100 <= 1 # 64)%Q /\ is_double (1 # 64) /\ INR 3 <= 6500 /\ factorised f three_zeros 0 square /\
  well_sampled 3 3 0 three_zeros square /\ 0 <= 3 < PI /\ 0 <= / 2 ^ 40 <= / 2 ^ 30 /\
  phases_within (/ 2 ^ 40) 3 f square (rounded_phase f) /\ (forall z z', (Qabs (rounded_phase f z z') <= 4)%Q) /\
  zeros_only f square (vanishes f) /\ count three_zeros square = 2%nat /\
  (forall h l, fresh_level (mkSum [] [] : sum_state (list Q)) h l).
Proof. exact default_example. Qed.

(** A request that is answered and leaves a line in the cache. *)
Example C91_memory_nonvacuous : let q := mkRequest one 5 (1#1000) 3 (5, 5)%Z 1 0 (-1, 0)%Q (1, 0)%Q in
  same_settings 5 3 [q] /\ stored_levels (served [q]) = 1%nat /\ stored_arrays (served [q]) = 2%nat.
Proof. exact memory_example. Qed.
