(** Properties C20-C25, C29, C30 (and the reporting half of C26): adaptive refinement. *)
From Coq Require Import Reals Qreals.
From Verif Require Import PyBase Rounding_Model Poly_Model Refine_Model Refine_Spec Zeros_Spec
  Refine_Proofs3 Refine_Examples.
Open Scope Z_scope.

(** ** C20: [variant] ranges over the simple, Newton and polynomial algorithms, [E] over
    all estimators, solvers and cache behaviours, [s] over all their states. *)
Theorem C20_search_terminates :
  forall (r : rect) (p : Z * Z), exists depth,
  forall S (E : env S) v s fuel, e_precision E = p -> (depth <= fuel)%nat ->
    snd (calcRoots E v fuel r s) <> OutOfFuel.
Proof. exact C20_exists. Qed.
Print Assumptions C20_search_terminates.

(** [a], [b]: numbers of halvings that bring the sides below the tolerance. *)
Theorem C20_depth_and_size :
  forall S (E : env S) v r s fuel a b s' l o,
  (x2 r - x1 r < inject_Z (2 ^ Z.of_nat a) * pow10 (- fst (e_precision E)))%Q ->
  (y2 r - y1 r < inject_Z (2 ^ Z.of_nat b) * pow10 (- snd (e_precision E)))%Q ->
  calcRoots E v fuel r s = (s', l, o) ->
  ((a + b < fuel)%nat -> o <> OutOfFuel) /\
  (List.length (handled l) <= 2 ^ (a + b))%nat /\
  (List.length (estimated l) < 2 * 2 ^ (a + b))%nat.
Proof. exact @C20_depth. Qed.
Print Assumptions C20_depth_and_size.

(** A finished search does not depend on the recursion bound of the model. *)
Theorem C20_bound_irrelevant :
  forall S (E : env S) v n m r s s' l o, (n <= m)%nat ->
  calcRoots E v n r s = (s', l, o) -> o <> OutOfFuel -> calcRoots E v m r s = (s', l, o).
Proof. exact @C20_fuel. Qed.
Print Assumptions C20_bound_irrelevant.

(** ** C21 *)
Theorem C21_leaves_tile :
  forall S (E : env S) v fuel r s s' l, proper r ->
  calcRoots E v fuel r s = (s', l, Done tt) -> tiles r (handled l).
Proof. exact @C21_lemma. Qed.
Print Assumptions C21_leaves_tile.

(** ** C22 *)
Theorem C22_reported_roots :
  forall S (E : env S) fuel r s s' l o z k, proper r ->
  calcRoots E Simple fuel r s = (s', l, o) -> In (z, k) (roots_of l) ->
  (k = 0 /\ contour_zero E z) \/
  (exists q t, estimate E l q t /\ sub_rect q r /\ sub_tolerance (e_precision E) q /\
    z = midpoint q /\ 1 <= k /\ (Qabs (t - inject_Z k) <= 1 # 2)%Q).
Proof. exact @C22_lemma. Qed.
Print Assumptions C22_reported_roots.

(** ** C23 *)
Theorem C23_correct_relative_to_estimator :
  forall S (E : env S) zeros fuel r s s' l o, proper r ->
  calcRoots E Simple fuel r s = (s', l, o) -> o <> OutOfFuel -> good_run zeros l ->
  o = Done tt /\
  located l = map (fun q => (midpoint q, Z.of_nat (count zeros q))) (reported l) /\
  (forall q, In q (reported l) ->
     sub_rect q r /\ sub_tolerance (e_precision E) q /\ (1 <= count zeros q)%nat) /\
  ForallOrdPairs interiors_disjoint (reported l) /\
  (forall z, In z zeros -> zin r z ->
     exists c k, In (c, k) (located l) /\ near (e_precision E) c z) /\
  (forall c k, In (c, k) (located l) ->
     exists z, In z zeros /\ zin r z /\ near (e_precision E) c z) /\
  fold_right Z.add 0 (map snd (located l)) = Z.of_nat (count zeros r).
Proof. exact @C23_lemma. Qed.
Print Assumptions C23_correct_relative_to_estimator.

(** Off by at most 0.2 turn is good enough. *)
Theorem C23_error_below_a_fifth_is_good :
  forall t n, (Qabs (t - inject_Z (Z.of_nat n)) <= 1 # 5)%Q -> good_estimate t n.
Proof. exact good_if_close. Qed.
Print Assumptions C23_error_below_a_fifth_is_good.

(** If different zeros are further apart than the tolerance, reported orders are orders. *)
Theorem C23_orders_of_separated_zeros :
  forall S (E : env S) zeros fuel r s s' l o, proper r ->
  calcRoots E Simple fuel r s = (s', l, o) -> o <> OutOfFuel -> good_run zeros l ->
  (forall z1 z2, In z1 zeros -> In z2 zeros ->
     (Rabs (fst z1 - fst z2) < Q2R (pow10 (- fst (e_precision E))))%R ->
     (Rabs (snd z1 - snd z2) < Q2R (pow10 (- snd (e_precision E))))%R -> z1 = z2) ->
  forall c k, In (c, k) (located l) ->
    exists z, In z zeros /\ zin r z /\ near (e_precision E) c z /\
      forall dec : (forall a b : point, {a = b} + {a <> b}), k = Z.of_nat (count_occ dec zeros z).
Proof. exact @C23_separated. Qed.
Print Assumptions C23_orders_of_separated_zeros.

(** ** C24: what the first estimate decides, for every algorithm. *)
Theorem C24_first_estimate_decides :
  forall S (E : env S) v n r s s1 zs m,
  proper r -> (v = PolyV -> e_has_df E = true) ->
  e_est E 0 r (if e_dirty E s then e_reset E s else s) = (s1, zs, Ok m) ->
  let '(_, l, o) := calcRoots E v (Datatypes.S n) r s in
  ((re m < 4 # 5)%Q -> o = Done tt /\ handled l = [r] /\ located l = []) /\
  ((4 # 5 <= re m)%Q -> sub_tolerance (e_precision E) r ->
     o = Done tt /\ exists k, located l = [(midpoint r, k)] /\ 1 <= k /\
       (Qabs (re m - inject_Z k) <= 1 # 2)%Q) /\
  ((4 # 5 <= re m)%Q -> ~ sub_tolerance (e_precision E) r -> v = Simple ->
     exists q t, In (EvMoment 0 q t) l /\ sub_rect q r /\ (size q == size r / 2)%Q).
Proof. exact @C24_first_decision. Qed.
Print Assumptions C24_first_estimate_decides.

(** An error of more than 0.2 turn, by however little, can lose a zero ... *)
Theorem C24_tight_zero_lost :
  forall d : Q, (0 < d)%Q ->
  exists (E : env unit) (r : rect) (zeros : list point) s' l,
    proper r /\ avoids zeros r /\ count zeros r = 1%nat /\
    (forall k q s, e_est E k q s = (tt, [], Ok (1 - (1 # 5) - d, 0)%Q)) /\
    calcRoots E Simple 1 r tt = (s', l, Done tt) /\ located l = [].
Proof. exact tight_lost. Qed.
Print Assumptions C24_tight_zero_lost.

(** ... and an error of 0.8 turn on an empty rectangle reports a root of order 1. *)
Theorem C24_tight_spurious_root :
  exists (E : env unit) (r : rect) s' l,
    proper r /\ count [] r = 0%nat /\
    (forall k q s, e_est E k q s = (tt, [], Ok (0 + (4 # 5), 0)%Q)) /\
    calcRoots E Simple 1 r tt = (s', l, Done tt) /\ located l = [(midpoint r, 1)].
Proof. exact tight_spurious. Qed.
Print Assumptions C24_tight_spurious_root.

(** ** C25 *)
Theorem C25_newton_reports :
  forall S (E : env S) fuel r s s' l o z k, proper r ->
  calcRoots E NewtonV fuel r s = (s', l, o) -> In (z, k) (roots_of l) ->
  (k = 0 /\ contour_zero E z) \/
  (exists q t, estimate E l q t /\ sub_rect q r /\ sub_tolerance (e_precision E) q /\
    z = midpoint q /\ 1 <= k /\ (Qabs (t - inject_Z k) <= 1 # 2)%Q) \/
  (exists q t, estimate E l q t /\ sub_rect q r /\
    (4 # 5 < t)%Q /\ (t < 13 # 10)%Q /\ (x2 q - x1 q < 1 # 10)%Q /\ (y2 q - y1 q < 1 # 10)%Q /\
    k = 1 /\
    (e_secant E (x1 q, (1 # 2) * (y1 q + y2 q))%Q (x2 q, (1 # 2) * (y1 q + y2 q))%Q = Ok z \/
     (e_has_df E = true /\
      e_newton E ((x1 q + x2 q) * (1 # 2), (y1 q + y2 q) * (1 # 2))%Q = Ok z))).
Proof. exact @C25_lemma. Qed.
Print Assumptions C25_newton_reports.

(** A failing iteration loses the zero silently, although the estimate is right; other
    exceptions propagate. *)
Theorem C25_failed_iteration_is_silent :
  forall S (E : env S) n r s s1 zs m e,
  e_est E 0 r (if e_dirty E s then e_reset E s else s) = (s1, zs, Ok m) ->
  ~ sub_tolerance (e_precision E) r ->
  (x2 r - x1 r < 1 # 10)%Q -> (y2 r - y1 r < 1 # 10)%Q -> (4 # 5 < re m)%Q -> (re m < 13 # 10)%Q ->
  e_secant E (x1 r, (1 # 2) * (y1 r + y2 r))%Q (x2 r, (1 # 2) * (y1 r + y2 r))%Q = Err e ->
  let '(_, l, o) := calcRoots E NewtonV (Datatypes.S n) r s in
  (is_RuntimeError e -> o = Done tt) /\ (~ is_RuntimeError e -> o = Raised e) /\ located l = [].
Proof. exact @C25_silent. Qed.
Print Assumptions C25_failed_iteration_is_silent.

Theorem C25_completeness_refuted :
  exists (E : env unit) (r : rect) (zeros : list point) s' l,
    proper r /\ count zeros r = 1%nat /\ good_run zeros l /\
    calcRoots E NewtonV 1 r tt = (s', l, Done tt) /\ located l = [].
Proof. exact newton_incomplete. Qed.
Print Assumptions C25_completeness_refuted.

Theorem C25_search_goes_on :
  forall S (E : env S) fuel r s s' l o,
  calcRoots E NewtonV fuel r s = (s', l, o) -> o <> OutOfFuel ->
  (forall a b e, e_secant E a b = Err e -> is_RuntimeError e) ->
  (forall a e, e_newton E a = Err e -> is_RuntimeError e) ->
  (forall q e, ~ In (EvMoment 0 q (Err e)) l) -> o = Done tt.
Proof. exact @C25_goes_on. Qed.
Print Assumptions C25_search_goes_on.

(** With converging iterations every zero is found. *)
Theorem C25_complete_if_iterations_converge :
  forall S (E : env S) zeros fuel r s s' l, proper r ->
  calcRoots E NewtonV fuel r s = (s', l, Done tt) -> good_run zeros l ->
  (forall q z, (x2 q - x1 q < 1 # 10)%Q -> (y2 q - y1 q < 1 # 10)%Q ->
     count zeros q = 1%nat -> In z zeros -> zin q z ->
     exists w, e_secant E (x1 q, (1 # 2) * (y1 q + y2 q))%Q (x2 q, (1 # 2) * (y1 q + y2 q))%Q = Ok w /\
       near (e_precision E) w z) ->
  forall z, In z zeros -> zin r z -> exists c k, In (c, k) (located l) /\ near (e_precision E) c z.
Proof. exact @C25_complete. Qed.
Print Assumptions C25_complete_if_iterations_converge.

(** ** C26, reporting half *)
Theorem C26_polynomial_reports :
  forall S (E : env S) fuel r s s' l o z k, proper r ->
  calcRoots E PolyV fuel r s = (s', l, o) -> In (z, k) (roots_of l) ->
  (k = 0 /\ contour_zero E z) \/
  (exists q t, estimate E l q t /\ sub_rect q r /\ sub_tolerance (e_precision E) q /\
    z = midpoint q /\ 1 <= k /\ (Qabs (t - inject_Z k) <= 1 # 2)%Q) \/
  (exists q t degree ms rts, estimate E l q t /\ sub_rect q r /\
    (4 # 5 < t)%Q /\ (t < 34 # 10)%Q /\
    1 <= degree <= 3 /\ (Qabs (t - inject_Z degree) <= 1 # 2)%Q /\
    Z.of_nat (List.length ms) = degree /\
    (forall i, (i < List.length ms)%nat -> In (EvMoment (1 + Z.of_nat i) q (Ok (nth i ms c0))) l) /\
    e_polyroots E (coefficients_cplx ms) = Ok rts /\
    In (z, k) (group_roots (e_precision E) rts)).
Proof. exact @C26_lemma. Qed.
Print Assumptions C26_polynomial_reports.

(** ** C29 *)
Theorem C29_progress_accounting :
  forall S (E : env S) v fuel r s s' l o, proper r -> e_progress E = true ->
  calcRoots E v fuel r s = (s', l, o) ->
  (forall a, In a (advances_of l) -> 0 <= a)%Q /\
  (Qsum (advances_of l) <= size r)%Q /\
  (o = Done tt -> Qsum (advances_of l) == size r - Qsum (map size (reported l)))%Q /\
  (o = Done tt -> Qsum (advances_of l) == size r <-> Qsum (map size (reported l)) == 0)%Q.
Proof. exact @C29_lemma. Qed.
Print Assumptions C29_progress_accounting.

Theorem C29_full_progress_refuted :
  exists (E : env unit) (r : rect) s' l,
    proper r /\ e_progress E = true /\ calcRoots E Simple 1 r tt = (s', l, Done tt) /\
    (Qsum (advances_of l) < size r)%Q.
Proof. exact progress_incomplete. Qed.
Print Assumptions C29_full_progress_refuted.

(** ** C30 *)
Theorem C30_polynomial_without_derivative :
  forall S (E : env S) n r s s' l o, e_has_df E = false ->
  calcRoots E PolyV (Datatypes.S n) r s = (s', l, o) ->
  (forall z k, In (z, k) (roots_of l) -> k = 0 /\ contour_zero E z) /\
  advances_of l = [] /\ handled l = [] /\
  (o = Raised ValueError \/ exists e, o = Raised e /\ In (EvMoment 0 r (Err e)) l).
Proof. exact @C30_no_derivative. Qed.
Print Assumptions C30_polynomial_without_derivative.

Theorem C30_polynomial_without_higher_moments :
  forall S (E : env S) fuel r s s' l o,
  calcRoots E PolyV fuel r s = (s', l, o) -> proper r ->
  (forall k q s0, 1 <= k -> snd (e_est E k q s0) = Err NotImplementedError) ->
  (forall z k, In (z, k) (roots_of l) ->
     (k = 0 /\ contour_zero E z) \/
     (exists q t, estimate E l q t /\ sub_rect q r /\ sub_tolerance (e_precision E) q /\
        z = midpoint q /\ 1 <= k /\ (Qabs (t - inject_Z k) <= 1 # 2)%Q)) /\
  (forall q t, e_has_df E = true -> estimate E l q t -> ~ sub_tolerance (e_precision E) q ->
     (4 # 5 < t)%Q -> (t < 34 # 10)%Q -> o = OutOfFuel \/ o = Raised NotImplementedError).
Proof. exact @C30_no_moments. Qed.
Print Assumptions C30_polynomial_without_higher_moments.

(** ** Non-vacuity: a search over [0,2] x [0,2] with tolerance 1 for a double zero at
    1/3 + i/3 and a simple one at 5/3 + 4i/3, with an exact estimator, meets the hypotheses
    of C23 and finds both with their orders. *)
Example refine_nonvacuous :
  exists s' l,
    calcRoots demo_env Simple 5 demo_rect tt = (s', l, Done tt) /\
    proper demo_rect /\ good_run demo_zeros l /\
    map (fun r => (Qred (re (fst r)), Qred (im (fst r)), snd r)) (located l) =
      [((1 # 4)%Q, (1 # 4)%Q, 2); ((7 # 4)%Q, (5 # 4)%Q, 1)] /\
    count demo_zeros demo_rect = 3%nat /\
    (x2 demo_rect - x1 demo_rect < inject_Z (2 ^ Z.of_nat 2) * pow10 (- fst (e_precision demo_env)))%Q /\
    (y2 demo_rect - y1 demo_rect < inject_Z (2 ^ Z.of_nat 2) * pow10 (- snd (e_precision demo_env)))%Q.
Proof. exact demo_run. Qed.
