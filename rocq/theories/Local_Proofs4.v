From Coq Require Import Reals Qreals Qminmax.
From Verif Require Import PyBase Rounding_Model Poly_Model Container_Model Finder_Model Refine_Model Refine_Spec Refine_Proofs Refine_Proofs2
  Cache_Model Sum_Model Sum_Spec Quad_Model Whole_Model Qsearch_Model EndToEnd_Model Local_Spec Local_Proofs Local_Proofs2 Local_Proofs3 Finder_Spec Finder_Proofs.
From Coq Require Import Lra.
Open Scope Z_scope.

(** A function with the values 0 (where [b]) and 1. *)
Definition bitfun (b : cplx -> bool) (z : cplx) : cR := if b z then (0, 0)%R else (1, 0)%R.

Lemma bit_vanishes b z : vanishes (bitfun b) z = b z.
Proof.
  unfold vanishes, bitfun. destruct (b z); cbn [fst snd].
  - destruct (Req_EM_T 0 0); [reflexivity|congruence].
  - destruct (Req_EM_T 1 0); [lra|reflexivity].
Qed.

Lemma arctan2_flat x : (x = 0 \/ x = 1)%R -> arctan2 (x, 0)%R = 0%R.
Proof.
  intros [->| ->]; unfold arctan2.
  - destruct (Rlt_dec 0 0); [lra|reflexivity].
  - destruct (Rlt_dec 0 1); [|lra]. unfold Rdiv. rewrite Rmult_0_l. apply atan_0.
Qed.

Lemma bit_step b z z' : phase_step (bitfun b) z z' = 0%R.
Proof.
  unfold phase_step, quotient, bitfun. destruct (b z), (b z'); cbn [fst snd];
    match goal with |- arctan2 (?x, ?y)%R = _ =>
      assert (Y : y = 0%R) by (unfold Rdiv; ring);
      assert (X : (x = 0 \/ x = 1)%R) by (first [left; unfold Rdiv; ring | right; field]) end;
    rewrite Y; apply arctan2_flat; exact X.
Qed.

Lemma flat_first {A} (large : A -> bool) a n : large a = false -> first_index large (repeat a n) = None.
Proof. intro H. induction n as [|n IH]; [reflexivity|]. cbn. rewrite H, IH. reflexivity. Qed.

Lemma flat_increments {A} (a : A) zs : increments (fun _ _ => a) zs = repeat a (pred (List.length zs)).
Proof.
  induction zs as [|z [|z' zs] IH]; [reflexivity|reflexivity|]. cbn [increments List.length pred repeat] in *.
  rewrite IH. reflexivity.
Qed.

Section Flat.
  Context (b : cplx -> bool) (deltaPhi : R) (factor : nat -> R -> nat) (close : cplx -> cplx -> bool)
    (n : nat) (precision : Z * Z).
  Hypothesis Hd : (0 < deltaPhi)%R.
  Notation zero := (fun _ _ : cplx => 0%R).

  Lemma flat_large : at_least deltaPhi 0 = false.
  Proof. unfold at_least. rewrite Rabs_R0. destruct (Rle_dec deltaPhi 0); [lra|reflexivity]. Qed.

  Lemma flat_gen fuel order a c :
    genPhiArr 0%R b zero (at_least deltaPhi) factor close n precision fuel order a c =
    genPhiArr 0%R b zero (fun _ => false) factor close n precision fuel order a c.
  Proof.
    unfold genPhiArr. destruct (order =? 0); [|reflexivity].
    destruct (genFuncArr b precision fuel a c n) as [[z found]|]; [|reflexivity].
    rewrite flat_increments.
    destruct fuel as [|m]; cbn [phi_loop]; rewrite (flat_first (at_least deltaPhi)) by apply flat_large;
      rewrite (flat_first (fun _ : R => false)) by reflexivity; reflexivity.
  Qed.

  Lemma flat_retrieve end_test coord point level fuel order t1 t2 (c : lcache R) :
    retrieveCached 0%R Rplus Ropp b zero (at_least deltaPhi) factor close n precision end_test coord point level fuel order t1 t2 c =
    retrieveCached 0%R Rplus Ropp b zero (fun _ => false) factor close n precision end_test coord point level fuel order t1 t2 c.
  Proof.
    unfold retrieveCached. cbv zeta. rewrite flat_gen. reflexivity.
  Qed.

  Lemma flat_line fuel order a c st :
    sumLine 0%R Rplus Ropp b zero (at_least deltaPhi) factor close n precision fuel order a c st =
    sumLine 0%R Rplus Ropp b zero (fun _ => false) factor close n precision fuel order a c st.
  Proof. unfold sumLine. cbv zeta. rewrite !flat_retrieve. reflexivity. Qed.
End Flat.

(** The searched square, and the zeros of the two functions: its upper left corner, for the
    second one also the point two units above. *)
Definition unit_square : rect := mkRect 0 1 0 1.
Definition corner_only (z : cplx) : bool := ceqb z (0, 1)%Q.
Definition corner_and_above (z : cplx) : bool := ceqb z (0, 1)%Q || ceqb z (0, 3)%Q.

Lemma bit_line b deltaPhi maxPrecision n precision fuel order a c st :
  (0 < deltaPhi)%R -> (0 <= re a)%Q -> (0 <= im a)%Q -> (0 <= re c)%Q -> (0 <= im c)%Q ->
  sum_line (bitfun b) deltaPhi maxPrecision n precision fuel order a c st =
  sumLine 0%R Rplus Ropp b (fun _ _ => 0%R) (fun _ => false) (refinement deltaPhi) (nearer maxPrecision) n precision fuel order a c st.
Proof.
  intros Hd A1 A2 C1 C2. rewrite <- (flat_line b deltaPhi (refinement deltaPhi) (nearer maxPrecision) n precision Hd).
  unfold sum_line.
  apply (sumLine_local True unit_square 0%R Rplus Ropp b (vanishes (bitfun b)) (fun _ _ => 0%R) (phase_step (bitfun b))).
  - intros z _. symmetry. apply bit_vanishes.
  - intros z z' _ _. symmetry. apply bit_step.
  - split; [split; assumption|left; exact Logic.I].
  - split; [split; assumption|left; exact Logic.I].
  - left. exact Logic.I.
Qed.

Lemma loop_step {LS} (line : Z -> cplx -> cplx -> LS -> LS * list cplx * res cplx) debug order a b es phi c ls ls' zs t :
  truthy (snd (ec_retrieve debug order a b c)) = false -> line order a b ls = (ls', zs, Ok (t, 0%Q)) -> t = 0%Q ->
  moment_loop line debug order ((a, b) :: es) phi (c, ls) =
  (let '(st', zs', w) := moment_loop line debug order es (cadd phi (0, 0)%Q)
      (ec_store order b a (copp (0, 0)%Q) (ec_store order a b (0, 0)%Q (fst (ec_retrieve debug order a b c))), ls') in
   (st', zs ++ zs', w)).
Proof.
  intros H HL ->. cbn [moment_loop fst snd]. destruct (ec_retrieve debug order a b c) as [c1 entry]. cbn [fst snd] in *.
  rewrite H, HL. reflexivity.
Qed.

Lemma corner_moment turns (b : cplx -> bool) deltaPhi maxPrecision fuel debug :
  (0 < deltaPhi)%R -> turns 0%R = 0%Q ->
  b = corner_only \/ b = corner_and_above ->
  exists s' m zs, cached_moment (turn_line turns (bitfun b) deltaPhi maxPrecision 2 (0, 0) (S (S (S (S (S fuel)))))) debug 0 unit_square
      new_estimator = (s', zs, Ok m) /\ (re m == 0)%Q /\
      map (fun z => (Qred (re z), Qred (im z))) zs =
        (if b (0, 3)%Q then [(0%Q, 1%Q); (0%Q, 3%Q); (0%Q, 1%Q)] else [(0%Q, 1%Q); (0%Q, 1%Q)]).
Proof.
  intros Hd Ht Hb.
  assert (L : forall x y s, (0 <= re x)%Q -> (0 <= im x)%Q -> (0 <= re y)%Q -> (0 <= im y)%Q ->
    turn_line turns (bitfun b) deltaPhi maxPrecision 2 (0, 0) (S (S (S (S (S fuel))))) 0 x y s =
    match sumLine 0%R Rplus Ropp b (fun _ _ => 0%R) (fun _ => false) (refinement deltaPhi) (nearer maxPrecision) 2 (0, 0) (S (S (S (S (S fuel))))) 0 x y s with
    | (st', SumOk found p) => (st', found, Ok (turns p, 0%Q))
    | (st', SumErr e) => (st', [], Err e)
    | (st', SumLoops) => (st', [], Err RuntimeError)
    end).
  { intros x y s H1 H2 H3 H4. unfold turn_line. rewrite bit_line by assumption. reflexivity. }
  assert (T1 : turns (0 + 0)%R = 0%Q) by (rewrite Rplus_0_l; exact Ht).
  assert (T2 : turns (- (0 + 0))%R = 0%Q) by (rewrite Rplus_0_l, Ropp_0; exact Ht).
  set (line := turn_line turns (bitfun b) deltaPhi maxPrecision 2 (0, 0) (S (S (S (S (S fuel)))))) in *. clearbody line.
  unfold cached_moment, edges, unit_square, new_estimator. cbn [x1 x2 y1 y2].
  Ltac line_step L T1 T2 :=
    erewrite loop_step;
    [|vm_compute; reflexivity
     |rewrite L by (vm_compute; discriminate); vm_compute; reflexivity
     |first [exact T1|exact T2]].
  destruct Hb as [->| ->]; destruct debug.
  - line_step L T1 T2. line_step L T1 T2. line_step L T1 T2. line_step L T1 T2.
    cbn [moment_loop]. eexists. eexists. eexists. split; [reflexivity|]. split; reflexivity.
  - line_step L T1 T2. line_step L T1 T2. line_step L T1 T2. line_step L T1 T2.
    cbn [moment_loop]. eexists. eexists. eexists. split; [reflexivity|]. split; reflexivity.
  - line_step L T1 T2. line_step L T1 T2. line_step L T1 T2. line_step L T1 T2.
    cbn [moment_loop]. eexists. eexists. eexists. split; [reflexivity|]. split; reflexivity.
  - line_step L T1 T2. line_step L T1 T2. line_step L T1 T2. line_step L T1 T2.
    cbn [moment_loop]. eexists. eexists. eexists. split; [reflexivity|]. split; reflexivity.
Qed.

Lemma corner_zero turns (b : cplx -> bool) deltaPhi maxPrecision fuel secant newton polyroots has_df progress debug depth :
  (0 < deltaPhi)%R -> turns 0%R = 0%Q -> (5 <= fuel)%nat ->
  b = corner_only \/ b = corner_and_above ->
  exists s' l, calcRoots (sum_env turns (bitfun b) deltaPhi maxPrecision 2 (0, 0) fuel debug secant newton polyroots has_df progress)
      Simple (S depth) unit_square new_estimator = (s', l, Done tt) /\
    map (fun r => (Qred (re (fst r)), Qred (im (fst r)), snd r)) (roots_of l) =
      (if b (0, 3)%Q then [(0%Q, 1%Q, 0); (0%Q, 3%Q, 0); (0%Q, 1%Q, 0)] else [(0%Q, 1%Q, 0); (0%Q, 1%Q, 0)]).
Proof.
  intros Hd Ht Hf Hb. do 5 (destruct fuel as [|fuel]; [lia|]).
  destruct (corner_moment turns b deltaPhi maxPrecision fuel debug Hd Ht Hb) as (s' & m & zs & K & Hm & Hz).
  unfold calcRoots, sum_env. cbn [e_dirty e_reset cached_env].
  change (ec_dirty (fst new_estimator)) with false. cbv iota.
  unfold mbind, calcMoment. cbn [e_est cached_env]. rewrite K.
  cbn [decideRefinement]. unfold decide_simple.
  assert (Q : Qltb (re m) TWO_PI = true) by (apply Qltb_true; rewrite Hm; reflexivity).
  rewrite Q. unfold mseq, mbind, emit, advance. cbn [e_progress].
  eexists. eexists. split; [reflexivity|].
  assert (RR : forall ys, roots_of (map (fun z => EvRoot (z, 0)) ys) = map (fun z => (z, 0)) ys).
  { clear. induction ys as [|y ys IH]; [reflexivity|]. unfold roots_of in *. cbn. f_equal. exact IH. }
  rewrite !roots_app, RR.
  assert (X : roots_of [EvMoment 0 unit_square (Ok m)] = []) by reflexivity.
  assert (Y : forall p : bool, roots_of (if p then [EvAdvance (area unit_square)] else []) = []) by (intros []; reflexivity).
  rewrite X, Y, app_nil_r. change (roots_of [EvDiscard unit_square (re m)]) with (@nil root). cbn [app].
  rewrite app_nil_r, map_map. cbn [fst snd].
  replace (map (fun x : cplx => (Qred (re x), Qred (im x), 0)) zs) with (map (fun p => (fst p, snd p, 0)) (map (fun z : cplx => (Qred (re z), Qred (im z))) zs))
    by (rewrite map_map; reflexivity).
  rewrite Hz. destruct (b (0, 3)%Q); reflexivity.
Qed.

Lemma outside_matters turns deltaPhi maxPrecision fuel secant newton polyroots has_df progress debug depth :
  (0 < deltaPhi)%R -> turns 0%R = 0%Q -> (5 <= fuel)%nat ->
  exists (f g : cplx -> cR) r, proper r /\ same_on r f g /\
  exists s1 l1 s2 l2,
    calcRoots (sum_env turns f deltaPhi maxPrecision 2 (0, 0) fuel debug secant newton polyroots has_df progress)
      Simple (S depth) r new_estimator = (s1, l1, Done tt) /\
    calcRoots (sum_env turns g deltaPhi maxPrecision 2 (0, 0) fuel debug secant newton polyroots has_df progress)
      Simple (S depth) r new_estimator = (s2, l2, Done tt) /\
    (forall z k, In (z, k) (roots_of l1) -> inside r z) /\
    (exists z, In (z, 0) (roots_of l2) /\ ~ inside r z).
Proof.
  intros Hd Ht Hf. exists (bitfun corner_only), (bitfun corner_and_above), unit_square.
  split; [split; discriminate|]. split.
  { intros z [_ [_ H]]. unfold bitfun, corner_and_above, corner_only.
    assert (C : ceqb z (0, 3)%Q = false).
    { unfold ceqb. apply andb_false_iff. right. cbn [re im fst snd].
      destruct (Qeq_bool (im z) 3) eqn:Q3; [|reflexivity]. apply Qeq_bool_iff in Q3.
      cbn [y2 unit_square] in H. exfalso. Lqa.lra. }
    rewrite C, orb_false_r. reflexivity. }
  destruct (corner_zero turns corner_only deltaPhi maxPrecision fuel secant newton polyroots has_df progress debug depth Hd Ht Hf (or_introl eq_refl))
    as (s1 & l1 & C1 & R1).
  destruct (corner_zero turns corner_and_above deltaPhi maxPrecision fuel secant newton polyroots has_df progress debug depth Hd Ht Hf (or_intror eq_refl))
    as (s2 & l2 & C2 & R2).
  exists s1, l1, s2, l2. split; [exact C1|]. split; [exact C2|].
  change (corner_only (0, 3)%Q) with false in R1. change (corner_and_above (0, 3)%Q) with true in R2. cbv iota in R1, R2.
  split.
  - intros z k Hz.
    assert (I1 : In (Qred (re z), Qred (im z), k) [(0%Q, 1%Q, 0); (0%Q, 1%Q, 0)]).
    { rewrite <- R1. apply in_map_iff. exists (z, k). split; [reflexivity|exact Hz]. }
    assert (I2 : Qred (re z) = 0%Q /\ Qred (im z) = 1%Q) by (destruct I1 as [I1|[I1|[]]]; injection I1; auto).
    destruct I2 as [I2 I3].
    assert (E1 : (re z == 0)%Q) by (rewrite <- Qred_correct, I2; reflexivity).
    assert (E2 : (im z == 1)%Q) by (rewrite <- Qred_correct, I3; reflexivity).
    unfold inside, unit_square. cbn [x1 x2 y1 y2]. rewrite E1, E2. Lqa.lra.
  - assert (I1 : In (0%Q, 3%Q, 0) (map (fun r => (Qred (re (fst r)), Qred (im (fst r)), snd r)) (roots_of l2)))
      by (rewrite R2; right; left; reflexivity).
    apply in_map_iff in I1. destruct I1 as ([z k] & I1 & I2). cbn [fst snd] in I1. injection I1 as J1 J2 ->.
    exists z. split; [exact I2|]. intros [_ [_ H]]. cbn [y2 unit_square] in H.
    assert (E2 : (im z == 3)%Q) by (rewrite <- Qred_correct, J2; reflexivity). rewrite E2 in H. Lqa.lra.
Qed.

(** ** Searches of a finder *)
Lemma env_for_cached {LS} (line : Z -> cplx -> cplx -> LS -> LS * list cplx * res cplx) debug secant newton polyroots has_df precision progress x :
  env_for (cached_env line debug secant newton polyroots has_df precision progress) x =
  cached_env line debug secant newton polyroots (match cx_df x with Some _ => true | None => false end) (cx_precision x) progress.
Proof. reflexivity. Qed.

Lemma algorithm_same free {LS} (line line' : Z -> cplx -> cplx -> LS -> LS * list cplx * res cplx)
    debug secant newton polyroots has_df precision progress v depth info s x :
  proper (rect_of x) -> follows free (rect_of x) line line' ->
  let alg := argument_algorithm (cached_env line debug secant newton polyroots has_df precision progress) v depth info s x in
  (free \/ (ar_end alg = None /\ forall i z, ~ In (i, (z, 0)) (ar_reports alg))) ->
  argument_algorithm (cached_env line' debug secant newton polyroots has_df precision progress) v depth info s x = alg.
Proof.
  intros P F. cbv zeta. unfold argument_algorithm. rewrite !env_for_cached.
  pose proof (cached_search free (rect_of x) LS line line' debug secant newton polyroots
    (match cx_df x with Some _ => true | None => false end) (cx_precision x) progress v depth F P s) as K.
  destruct (calcRoots (cached_env line _ _ _ _ _ _ _) v depth (rect_of x) s) as [[s' l] o]. intro U.
  rewrite K; [reflexivity|].
  destruct U as [U|[U1 U2]]; [left; exact U|right]. cbn [ar_end ar_reports fst snd] in *.
  split.
  - intros z Hz. apply (U2 (info (z, 0)) z). apply in_map_iff. exists (z, 0). auto.
  - destruct o as [[]|e|]; try discriminate. exists tt. reflexivity.
Qed.

Lemma finder_same fH dfH dflt reRan imRan prec c (alg alg' : rctx -> alg_run) :
  alg' (serial_context fH dfH dflt reRan imRan prec) = alg (serial_context fH dfH dflt reRan imRan prec) ->
  calculateRoots fH dfH dflt alg' reRan imRan prec c = calculateRoots fH dfH dflt alg reRan imRan prec c.
Proof. intro H. unfold calculateRoots. cbv zeta. rewrite H. reflexivity. Qed.

Lemma Qmin_max_le a b : (Qmin a b <= Qmax a b)%Q.
Proof. apply Qle_trans with a; [apply Q.le_min_l|apply Q.le_max_l]. Qed.

Lemma context_proper fH dfH dflt reRan imRan prec :
  let P := one_more (decimals dflt prec) in
  let r := rect_of (serial_context fH dfH dflt reRan imRan prec) in
  proper r /\ forall z, inside r z -> near_request reRan imRan P z.
Proof.
  cbv zeta. destruct (search_context_spec fH dfH dflt reRan imRan prec) as (_ & _ & _ & (H1 & H2 & H3 & H4) & _).
  set (x := serial_context fH dfH dflt reRan imRan prec) in *.
  set (P := one_more (decimals dflt prec)) in *.
  pose proof (pow10_pos (- fst P)) as Q1. pose proof (pow10_pos (- snd P)) as Q2.
  pose proof (Qmin_max_le (fst reRan) (snd reRan)) as M1. pose proof (Qmin_max_le (fst imRan) (snd imRan)) as M2.
  unfold rect_of, proper, inside, near_request. cbn [x1 x2 y1 y2].
  split; [rewrite H1, H2, H3, H4; Lqa.lra|]. intros z [[A B] [C D]].
  rewrite H1 in A. rewrite H2 in B. rewrite H3 in C. rewrite H4 in D. auto.
Qed.

Lemma context_seen fH dfH dflt reRan imRan prec z :
  let P := one_more (decimals dflt prec) in
  seen True (rect_of (serial_context fH dfH dflt reRan imRan prec)) z ->
  (Qmin (fst reRan) (snd reRan) - pow10 (- fst P) <= re z)%Q /\ (Qmin (fst imRan) (snd imRan) - 3 * pow10 (- snd P) <= im z)%Q.
Proof.
  cbv zeta. destruct (search_context_spec fH dfH dflt reRan imRan prec) as (_ & _ & _ & (H1 & H2 & H3 & H4) & _).
  intros [[A B] _]. unfold rect_of in A, B. cbn [x1 y1] in A, B. rewrite H1 in A. rewrite H3 in B. auto.
Qed.

Section FinderLocal.
  Context (turns : R -> Q) (deltaPhi : R) (maxPrecision : Q) (n : nat) (precision : Z * Z) (fuel : nat) (debug : bool)
    (secant : cplx -> cplx -> res cplx) (newton : cplx -> res cplx) (polyroots : list cplx -> res (list cplx))
    (has_df progress : bool) (v : variant) (depth : nat) (info : root -> bool) (s : ecache * sum_state R).
  Notation sum_algorithm f :=
    (argument_algorithm (sum_env turns f deltaPhi maxPrecision n precision fuel debug secant newton polyroots has_df progress) v depth info s).

  Lemma finder_domain (f g : cplx -> cR) fH dfH dflt reRan imRan prec c :
    (forall z, near_request reRan imRan (one_more (decimals dflt prec)) z -> f z = g z) ->
    let run := sum_algorithm f (serial_context fH dfH dflt reRan imRan prec) in
    ar_end run = None -> (forall i z, ~ In (i, (z, 0)) (ar_reports run)) ->
    calculateRoots fH dfH dflt (sum_algorithm g) reRan imRan prec c = calculateRoots fH dfH dflt (sum_algorithm f) reRan imRan prec c.
  Proof.
    intros H run H1 H2. apply finder_same.
    destruct (context_proper fH dfH dflt reRan imRan prec) as [P I].
    unfold sum_env in *. apply (algorithm_same False); [exact P| |right; split; assumption].
    apply turn_line_local. intros z Hz. apply H, I, seen_in, Hz.
  Qed.

  Lemma finder_beyond (f g : cplx -> cR) fH dfH dflt reRan imRan prec c :
    (let P := one_more (decimals dflt prec) in
     forall z, (Qmin (fst reRan) (snd reRan) - pow10 (- fst P) <= re z)%Q -> (Qmin (fst imRan) (snd imRan) - 3 * pow10 (- snd P) <= im z)%Q ->
     f z = g z) ->
    calculateRoots fH dfH dflt (sum_algorithm g) reRan imRan prec c = calculateRoots fH dfH dflt (sum_algorithm f) reRan imRan prec c.
  Proof.
    intros H. apply finder_same.
    destruct (context_proper fH dfH dflt reRan imRan prec) as [P I].
    unfold sum_env in *. apply (algorithm_same True); [exact P| |left; exact Logic.I].
    apply turn_line_local. intros z Hz. destruct (context_seen fH dfH dflt reRan imRan prec z Hz) as [A B]. apply H; assumption.
  Qed.
End FinderLocal.

(** A constant function, and one that has other values (even a zero) outside the unit square. *)
Lemma one_zero_above turns deltaPhi maxPrecision fuel secant newton polyroots has_df progress debug depth :
  (0 < deltaPhi)%R -> turns 0%R = 0%Q ->
  exists s' l, calcRoots (sum_env turns (bitfun (fun _ => false)) deltaPhi maxPrecision 2 (0, 0) (S fuel) debug secant newton polyroots has_df progress)
      Simple (S depth) unit_square new_estimator = (s', l, Done tt) /\ no_contour_zero l.
Proof.
  intros Hd Ht.
  assert (K : exists s' m, cached_moment (turn_line turns (bitfun (fun _ => false)) deltaPhi maxPrecision 2 (0, 0) (S fuel)) debug 0 unit_square
      new_estimator = (s', [], Ok m) /\ (re m == 0)%Q).
  { assert (L : forall x y s, (0 <= re x)%Q -> (0 <= im x)%Q -> (0 <= re y)%Q -> (0 <= im y)%Q ->
      turn_line turns (bitfun (fun _ => false)) deltaPhi maxPrecision 2 (0, 0) (S fuel) 0 x y s =
      match sumLine 0%R Rplus Ropp (fun _ => false) (fun _ _ => 0%R) (fun _ => false) (refinement deltaPhi) (nearer maxPrecision) 2 (0, 0) (S fuel) 0 x y s with
      | (st', SumOk found p) => (st', found, Ok (turns p, 0%Q))
      | (st', SumErr e) => (st', [], Err e)
      | (st', SumLoops) => (st', [], Err RuntimeError)
      end).
    { intros x y s H1 H2 H3 H4. unfold turn_line. rewrite bit_line by assumption. reflexivity. }
    assert (T1 : turns (0 + 0)%R = 0%Q) by (rewrite Rplus_0_l; exact Ht).
    assert (T2 : turns (- (0 + 0))%R = 0%Q) by (rewrite Rplus_0_l, Ropp_0; exact Ht).
    set (line := turn_line turns (bitfun (fun _ => false)) deltaPhi maxPrecision 2 (0, 0) (S fuel)) in *. clearbody line.
    unfold cached_moment, edges, unit_square, new_estimator. cbn [x1 x2 y1 y2].
    destruct debug.
    - line_step L T1 T2. line_step L T1 T2. line_step L T1 T2. line_step L T1 T2.
      cbn [moment_loop app]. eexists. eexists. split; reflexivity.
    - line_step L T1 T2. line_step L T1 T2. line_step L T1 T2. line_step L T1 T2.
      cbn [moment_loop app]. eexists. eexists. split; reflexivity. }
  destruct K as (s' & m & K & Hm).
  unfold calcRoots, sum_env. cbn [e_dirty e_reset cached_env].
  change (ec_dirty (fst new_estimator)) with false. cbv iota.
  unfold mbind, calcMoment. cbn [e_est cached_env]. rewrite K.
  assert (Q : Qltb (re m) TWO_PI = true) by (apply Qltb_true; rewrite Hm; reflexivity).
  cbn [decideRefinement]; unfold decide_simple; rewrite Q; unfold mseq, mbind, emit, advance; cbn [e_progress];
    destruct progress; (eexists; eexists; split; [reflexivity|]); intros z Hz; cbn in Hz; intuition discriminate.
Qed.
