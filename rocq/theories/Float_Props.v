(** Properties C65, C66: the refinement, the widened domain and the job grid in floating point. *)
From Coq Require Import Reals Qreals Qminmax.
From Flocq Require Import Core.
From Verif Require Import PyBase Rounding_Model Poly_Model Refine_Model Refine_Spec Zeros_Spec Refine_Examples
  Finder_Model EndToEnd_Model Float_Model Float_Spec Float_Proofs Float_Proofs3 Float_Proofs4
  FloatGrid_Model FloatGrid_Spec FloatGrid_Proofs.
Open Scope Z_scope.

(** ** C65: [rnd] is any rounding function; [rnd64] is that of binary64; [tolRe], [tolIm] are
    the floats [10 ** (-precision)]. *)
Theorem C65_binary64 :
  rounding rnd64 /\
  (forall x, is_double (rnd64 x)) /\
  (forall x, representable rnd64 x <-> is_double x) /\
  (forall x y, is_double y -> (Qabs (rnd64 x - x) <= Qabs (y - x))%Q) /\
  (forall x, Q2R (rnd64 x) = round radix2 (FLT_exp (-1074) 53) ZnearestE (Q2R x)).
Proof. exact rnd64_spec. Qed.
Print Assumptions C65_binary64.

(** Without rounding this is the search of C20-C25. *)
Theorem C65_exact_instance :
  forall S (E : env S) v fuel r s,
  fcalcRoots (fun x => x) (pow10 (- fst (e_precision E))) (pow10 (- snd (e_precision E))) E v fuel r s =
  calcRoots E v fuel r s.
Proof. exact @fl_exact. Qed.
Print Assumptions C65_exact_instance.

Theorem C65_leaves_tile :
  forall S rnd tolRe tolIm (E : env S), rounding rnd ->
  forall v fuel r s s' l, proper r -> float_rect rnd r ->
  fcalcRoots rnd tolRe tolIm E v fuel r s = (s', l, Done tt) ->
  tiles r (handled l) /\ forall q, In q (handled l) -> float_rect rnd q.
Proof. exact @fl_tiles. Qed.
Print Assumptions C65_leaves_tile.

Theorem C65_reported_roots :
  forall S rnd tolRe tolIm (E : env S), rounding rnd ->
  representable rnd tolRe -> representable rnd tolIm ->
  forall fuel r s s' l o z k, proper r -> float_rect rnd r ->
  fcalcRoots rnd tolRe tolIm E Simple fuel r s = (s', l, o) -> In (z, k) (roots_of l) ->
  (k = 0 /\ contour_zero E z) \/
  (exists q t, estimate E l q t /\ sub_rect q r /\ float_rect rnd q /\ sides_below tolRe tolIm q /\
    inside q z /\ 1 <= k /\ (Qabs (t - inject_Z k) <= 1 # 2)%Q).
Proof. exact @fl_reports. Qed.
Print Assumptions C65_reported_roots.

Theorem C65_correct_relative_to_estimator :
  forall S rnd tolRe tolIm (E : env S), rounding rnd ->
  representable rnd tolRe -> representable rnd tolIm ->
  forall zeros fuel r s s' l o, proper r -> float_rect rnd r ->
  fcalcRoots rnd tolRe tolIm E Simple fuel r s = (s', l, o) -> o <> OutOfFuel -> good_run zeros l ->
  o = Done tt /\
  Forall2 (fun q ck => inside q (fst ck) /\ snd ck = Z.of_nat (count zeros q)) (reported l) (located l) /\
  (forall q, In q (reported l) ->
     sub_rect q r /\ float_rect rnd q /\ sides_below tolRe tolIm q /\ (1 <= count zeros q)%nat) /\
  ForallOrdPairs interiors_disjoint (reported l) /\
  (forall z, In z zeros -> zin r z -> exists q, In q (reported l) /\ zin q z) /\
  (forall z, In z zeros -> zin r z ->
     exists c k, In (c, k) (located l) /\ fnear tolRe tolIm c z) /\
  (forall c k, In (c, k) (located l) ->
     exists z, In z zeros /\ zin r z /\ fnear tolRe tolIm c z) /\
  fold_right Z.add 0 (map snd (located l)) = Z.of_nat (count zeros r).
Proof. exact @fl_correct. Qed.
Print Assumptions C65_correct_relative_to_estimator.

(** Binary64, corners of size at most 2^k, tolerances at least 2^(k-49): the search ends. *)
Theorem C65_search_terminates :
  forall S (E : env S) tolRe tolIm k v r s fuel a b s' l o,
  -1022 <= k -> is_double tolRe -> is_double tolIm ->
  (2 ^ (k - 49) <= tolRe)%Q -> (2 ^ (k - 49) <= tolIm)%Q ->
  proper r -> is_double (x1 r) -> is_double (x2 r) -> is_double (y1 r) -> is_double (y2 r) ->
  (- 2 ^ k <= x1 r)%Q -> (x2 r <= 2 ^ k)%Q -> (- 2 ^ k <= y1 r)%Q -> (y2 r <= 2 ^ k)%Q ->
  (x2 r - x1 r < inject_Z (2 ^ Z.of_nat a) * tolRe)%Q ->
  (y2 r - y1 r < inject_Z (2 ^ Z.of_nat b) * tolIm)%Q ->
  fcalcRoots rnd64 tolRe tolIm E v fuel r s = (s', l, o) ->
  ((a + b + 2 < fuel)%nat -> o <> OutOfFuel) /\
  (List.length (handled l) <= 4 * 2 ^ (a + b))%nat /\
  (List.length (estimated l) < 8 * 2 ^ (a + b))%nat.
Proof. exact @depth64. Qed.
Print Assumptions C65_search_terminates.

Theorem C65_bound_irrelevant :
  forall S rnd tolRe tolIm (E : env S) v n m r s s' l o, (n <= m)%nat ->
  fcalcRoots rnd tolRe tolIm E v n r s = (s', l, o) -> o <> OutOfFuel ->
  fcalcRoots rnd tolRe tolIm E v m r s = (s', l, o).
Proof. exact @fl_fuel. Qed.
Print Assumptions C65_bound_irrelevant.

(** Where the grid of floats is at least as coarse as the tolerance, right estimates make the
    search go on for ever (whatever the recursion bound [fuel]). *)
Theorem C65_precision_limit :
  forall S (E : env S) tolRe tolIm zeros z k,
  is_double tolRe -> is_double tolIm ->
  In z zeros -> too_fine k tolRe (fst z) \/ too_fine k tolIm (snd z) ->
  forall r fuel s s' l o,
  proper r -> is_double (x1 r) -> is_double (x2 r) -> is_double (y1 r) -> is_double (y2 r) -> zin r z ->
  fcalcRoots rnd64 tolRe tolIm E Simple fuel r s = (s', l, o) -> good_run zeros l -> o = OutOfFuel.
Proof. exact @limit64. Qed.
Print Assumptions C65_precision_limit.

(** It does happen: precision 0 at 2^53. *)
Theorem C65_always_terminates_refuted :
  exists (E : env unit) (zeros : list point) (r : rect),
  proper r /\ is_double (x1 r) /\ is_double (x2 r) /\ is_double (y1 r) /\ is_double (y2 r) /\
  (exists z, In z zeros /\ zin r z) /\
  forall fuel, exists s' l,
    fcalcRoots rnd64 1 1 E Simple fuel r tt = (s', l, OutOfFuel) /\ good_run zeros l.
Proof. exact never_ends64. Qed.
Print Assumptions C65_always_terminates_refuted.

(** Non-vacuity: tolerance 0.1 rounded to binary64, three zeros, everything found. *)
Example C65_nonvacuous : exists s' l,
  let t := rnd64 (1 # 10) in
  fcalcRoots rnd64 t t demo_env Simple 13 demo_rect tt = (s', l, Done tt) /\
  is_double t /\ ~ (t == 1 # 10)%Q /\ (2 ^ (1 - 49) <= t)%Q /\
  proper demo_rect /\ float_rect rnd64 demo_rect /\ good_run demo_zeros l /\
  count demo_zeros demo_rect = 3%nat /\ map snd (located l) = [2; 1] /\
  (x2 demo_rect - x1 demo_rect < inject_Z (2 ^ Z.of_nat 5) * t)%Q.
Proof. exact float_demo. Qed.
Example C65_limit_nonvacuous : too_fine 53 1 (fst (qpoint far_zero)).
Proof. exact far_too_fine. Qed.

(** ** C66 *)
Theorem C66_domain_encloses_request :
  forall tx ty reRan imRan,
  is_double tx -> is_double ty -> (0 <= tx)%Q -> (0 <= ty)%Q -> double_pair reRan -> double_pair imRan ->
  let d := fdesymmetrizeDomain rnd64 tx ty reRan imRan in
  double_pair (fst d) /\ double_pair (snd d) /\
  (fst (fst d) <= Qmin (fst reRan) (snd reRan) /\ Qmax (fst reRan) (snd reRan) <= snd (fst d) /\
   fst (snd d) <= Qmin (fst imRan) (snd imRan) /\ Qmax (fst imRan) (snd imRan) <= snd (snd d))%Q.
Proof. exact desym64. Qed.
Print Assumptions C66_domain_encloses_request.

Theorem C66_margin_kept :
  forall k tx ty reRan imRan,
  -1022 <= k -> is_double tx -> is_double ty -> (2 ^ (k - 52) <= tx)%Q -> (2 ^ (k - 52) <= ty)%Q ->
  double_pair reRan -> double_pair imRan -> below k reRan -> below k imRan ->
  let d := fdesymmetrizeDomain rnd64 tx ty reRan imRan in
  (fst (fst d) < Qmin (fst reRan) (snd reRan) /\ Qmax (fst reRan) (snd reRan) < snd (fst d) /\
   fst (snd d) < Qmin (fst imRan) (snd imRan) /\ Qmax (fst imRan) (snd imRan) < snd (snd d))%Q.
Proof. exact desym64_strict. Qed.
Print Assumptions C66_margin_kept.

(** Far from the origin the margin disappears. *)
Theorem C66_margin_always_kept_refuted :
  exists reRan imRan tx ty, double_pair reRan /\ double_pair imRan /\
    tx = rnd64 (pow10 (- 4)) /\ ty = tx /\
    let d := fdesymmetrizeDomain rnd64 tx ty reRan imRan in d = (reRan, imRan).
Proof. exact absorbed64. Qed.
Print Assumptions C66_margin_always_kept_refuted.

(** [x] is the context of the whole search, [n] the number of processes. *)
Theorem C66_jobs_tile_domain :
  forall n x, (1 <= n)%nat -> Z.of_nat n <= 2 ^ 51 ->
  double_pair (cx_reRan x) -> double_pair (cx_imRan x) -> wide n (cx_reRan x) -> wide n (cx_imRan x) ->
  tiles (rect_of x) (map rect_of (fcreateRootJobs rnd64 n x)) /\
  (forall job, In job (fcreateRootJobs rnd64 n x) ->
     double_pair (cx_reRan job) /\ double_pair (cx_imRan job) /\
     cx_f job = cx_f x /\ cx_df job = cx_df x /\ cx_precision job = cx_precision x) /\
  List.length (fcreateRootJobs rnd64 n x) = (n * n)%nat.
Proof. exact jobs_tile64. Qed.
Print Assumptions C66_jobs_tile_domain.

(** The width condition is needed. *)
Theorem C66_narrow_domain_refuted :
  exists a b n i, (a < b)%Q /\ is_double a /\ is_double b /\ (i < n)%nat /\
  (flinspace_pt rnd64 a b n (i + 1) < flinspace_pt rnd64 a b n i)%Q.
Proof. exact inverted64. Qed.
Print Assumptions C66_narrow_domain_refuted.

(** Non-vacuity: a request around [-1, 1] with six decimals, split among 3 x 3 jobs. *)
Example C66_nonvacuous :
  let t := rnd64 (pow10 (- 7)) in
  let d := fdesymmetrizeDomain rnd64 t t (1, -1)%Q (-1, 1)%Q in
  is_double t /\ (2 ^ (0 - 52) <= t)%Q /\ below 0 (1, -1)%Q /\ double_pair (1, -1)%Q /\
  wide 3 (fst d) /\ wide 3 (snd d) /\
  ~ (nth 1 (flinspace rnd64 (fst (fst d)) (snd (fst d)) 3) 0 == fst (fst d) + (snd (fst d) - fst (fst d)) / 3)%Q.
Proof. exact grid_demo. Qed.
