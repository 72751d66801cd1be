From Coq Require Import Reals Qreals.
From Verif Require Import PyBase Rounding_Model Poly_Model Container_Model Finder_Model Refine_Model Refine_Spec Refine_Proofs
  Cache_Model Sum_Model Sum_Spec Quad_Model Whole_Model Qsearch_Model EndToEnd_Model Local_Proofs Local_Proofs4
  Raise_Model Raise_Spec Raise_Proofs Raise_Proofs2 Raise_Proofs3.
Open Scope Z_scope.

(** A zero in the lower left corner of the unit square; the function raises outside the real axis. *)
Definition origin_only (z : cplx) : bool := ceqb z (0, 0)%Q.
Definition off_axis (zs : list cplx) : option exn :=
  if existsb (fun z => negb (Qeq_bool (im z) 0)) zs then Some ValueError else None.

Lemma origin_moment turns deltaPhi maxPrecision fuel debug :
  (0 < deltaPhi)%R -> turns 0%R = 0%Q ->
  exists s' m zs, cached_moment (turn_line turns (bitfun origin_only) deltaPhi maxPrecision 2 (0, 0) (S (S (S (S (S fuel)))))) debug 0 unit_square
      new_estimator = (s', zs, Ok m) /\ (re m == 0)%Q /\
      map (fun z => (Qred (re z), Qred (im z))) zs = [(0%Q, 0%Q); (0%Q, 0%Q)].
Proof.
  intros Hd Ht.
  assert (L : forall x y s, (0 <= re x)%Q -> (0 <= im x)%Q -> (0 <= re y)%Q -> (0 <= im y)%Q ->
    turn_line turns (bitfun origin_only) deltaPhi maxPrecision 2 (0, 0) (S (S (S (S (S fuel))))) 0 x y s =
    match sumLine 0%R Rplus Ropp origin_only (fun _ _ => 0%R) (fun _ => false) (refinement deltaPhi) (nearer maxPrecision) 2 (0, 0) (S (S (S (S (S fuel))))) 0 x y s with
    | (st', SumOk found p) => (st', found, Ok (turns p, 0%Q))
    | (st', SumErr e) => (st', [], Err e)
    | (st', SumLoops) => (st', [], Err RuntimeError)
    end).
  { intros x y s H1 H2 H3 H4. unfold turn_line. rewrite bit_line by assumption. reflexivity. }
  assert (T1 : turns (0 + 0)%R = 0%Q) by (rewrite Rplus_0_l; exact Ht).
  assert (T2 : turns (- (0 + 0))%R = 0%Q) by (rewrite Rplus_0_l, Ropp_0; exact Ht).
  set (line := turn_line turns (bitfun origin_only) deltaPhi maxPrecision 2 (0, 0) (S (S (S (S (S fuel)))))) in *. clearbody line.
  unfold cached_moment, edges, unit_square, new_estimator. cbn [x1 x2 y1 y2].
  destruct debug.
  - line_step L T1 T2. line_step L T1 T2. line_step L T1 T2. line_step L T1 T2.
    cbn [moment_loop]. eexists. eexists. eexists. split; [reflexivity|]. split; reflexivity.
  - line_step L T1 T2. line_step L T1 T2. line_step L T1 T2. line_step L T1 T2.
    cbn [moment_loop]. eexists. eexists. eexists. split; [reflexivity|]. split; reflexivity.
Qed.

Lemma origin_search turns deltaPhi maxPrecision fuel secant newton polyroots has_df progress debug depth :
  (0 < deltaPhi)%R -> turns 0%R = 0%Q ->
  exists s' l z1 z2, calcRoots (sum_env turns (bitfun origin_only) deltaPhi maxPrecision 2 (0, 0) (S (S (S (S (S fuel))))) debug secant newton polyroots has_df progress)
      Simple (S depth) unit_square new_estimator = (s', l, Done tt) /\
    roots_of l = [(z1, 0); (z2, 0)] /\ ceqb z1 (0, 0)%Q = true /\ ceqb z2 (0, 0)%Q = true.
Proof.
  intros Hd Ht.
  destruct (origin_moment turns deltaPhi maxPrecision fuel debug Hd Ht) as (s' & m & zs & K & Hm & Hz).
  unfold calcRoots, sum_env. cbn [e_dirty e_reset cached_env].
  change (ec_dirty (fst new_estimator)) with false. cbv iota.
  unfold mbind, calcMoment. cbn [e_est cached_env]. rewrite K.
  cbn [decideRefinement]. unfold decide_simple.
  assert (Q : Qltb (re m) TWO_PI = true) by (apply Qltb_true; rewrite Hm; reflexivity).
  rewrite Q. unfold mseq, mbind, emit, advance. cbn [e_progress].
  destruct zs as [|z1 [|z2 [|z3 zs]]]; try discriminate Hz. cbn [map] in Hz. injection Hz as A1 A2 B1 B2.
  exists s'. eexists. exists z1, z2. split; [reflexivity|]. split; [destruct progress; reflexivity|].
  unfold ceqb. cbn [re im fst snd].
  assert (E : forall q, Qred q = 0%Q -> Qeq_bool q 0 = true) by (intros q H; apply Qeq_bool_iff; rewrite <- (Qred_correct q), H; reflexivity).
  rewrite !E by assumption. split; reflexivity.
Qed.

Lemma origin_raises turns deltaPhi maxPrecision fuel secant newton polyroots has_df progress debug depth :
  exists s' l, calcRoots (raising_sum_env turns (bitfun origin_only) off_axis deltaPhi maxPrecision 2 (0, 0) (S (S (S (S (S fuel))))) debug secant newton polyroots has_df progress)
      Simple (S depth) unit_square new_estimator = (s', l, Raised ValueError) /\
    roots_of l = [((0, 0)%Q, 0)].
Proof.
  unfold calcRoots, raising_sum_env. cbn [e_dirty e_reset cached_env].
  change (ec_dirty (fst new_estimator)) with false. cbv iota.
  unfold mbind, calcMoment. cbn [e_est cached_env].
  assert (L : raising_turn_line turns (bitfun origin_only) off_axis deltaPhi maxPrecision 2 (0, 0) (S (S (S (S (S fuel))))) 0 (0, 0)%Q (1, 0)%Q fresh_sum
    = (fresh_sum, [(0, 0)%Q], Err ValueError)).
  { unfold raising_turn_line, raising_sumLine. change (Qeq_bool (im (0, 0)%Q) (im (1, 0)%Q)) with true. cbv iota.
    unfold raising_retrieveCached. cbn [horizontal fresh_sum dget]. unfold raising_genPhiArr. change (0 =? 0) with true. cbv iota.
    change (if Qle_bool (re (0, 0)%Q) (re (1, 0)%Q) then re (0, 0)%Q else re (1, 0)%Q) with 0%Q.
    change (if Qle_bool (re (0, 0)%Q) (re (1, 0)%Q) then re (1, 0)%Q else re (0, 0)%Q) with 1%Q.
    change (im (0, 0)%Q) with 0%Q. unfold raising_genFuncArr.
    change (linspaceC (0, 0)%Q (1, 0)%Q 2) with [(0, 0)%Q; (1, 0)%Q].
    cbn [raising_shift_loop]. change (off_axis [(0, 0)%Q; (1, 0)%Q]) with (@None exn). cbv iota.
    cbn [filter]. rewrite !bit_vanishes. change (origin_only (0, 0)%Q) with true. change (origin_only (1, 0)%Q) with false. cbv iota.
    change (off_axis (translate (line_shift (0, 0) (0, 0)%Q (1, 0)%Q) [(0, 0)%Q; (1, 0)%Q])) with (Some ValueError). cbv iota.
    reflexivity. }
  unfold cached_moment, edges, unit_square, new_estimator. cbn [x1 x2 y1 y2 moment_loop fst snd].
  destruct (ec_retrieve debug 0 (0, 0)%Q (1, 0)%Q new_cache) as [c1 entry] eqn:R.
  assert (T : truthy entry = false) by (destruct debug; vm_compute in R; injection R as _ <-; reflexivity).
  rewrite T, L. eexists. eexists. split; reflexivity.
Qed.

(** ** What is reported when the first sampling of a line raises *)
Lemma shifts_reported raises f_zero s fuel : forall zs found e,
  raising_shift_loop raises f_zero s fuel zs = Fails found e ->
  exists j, (j < fuel)%nat /\ raises (shifted s j zs) = Some e /\
    (forall i, (i < j)%nat -> raises (shifted s i zs) = None /\ filter f_zero (shifted s i zs) <> []) /\
    found = flat_map (fun i => filter f_zero (shifted s i zs)) (seq 0 j).
Proof.
  induction fuel as [|n IH]; intros zs found e; cbn [raising_shift_loop]; [discriminate|].
  destruct (raises zs) as [x|] eqn:R.
  - intro U. injection U as <- ->. exists O. split; [lia|]. split; [exact R|]. split; [intros i Hi; lia|reflexivity].
  - destruct (filter f_zero zs) as [|z0 zeros] eqn:F; [discriminate|].
    destruct (raising_shift_loop raises f_zero s n (translate s zs)) as [[[z fo]|]|fo x] eqn:L; try discriminate.
    intro U. injection U as <- ->. destruct (IH _ _ _ L) as (j & Hj & Rj & Before & ->).
    assert (Sh : forall i, shifted s i (translate s zs) = shifted s (S i) zs).
    { intro i. unfold shifted. induction i as [|i IHi]; [reflexivity|].
      change (translate s (Nat.iter i (translate s) (translate s zs)) = translate s (Nat.iter (S i) (translate s) zs)).
      f_equal. exact IHi. }
    exists (S j). split; [lia|]. split; [rewrite <- Sh; exact Rj|]. split.
    + intros [|i] Hi.
      * cbn. rewrite R, F. split; [reflexivity|discriminate].
      * rewrite <- Sh. apply Before. lia.
    + cbn [seq flat_map]. change (shifted s 0 zs) with zs. rewrite F. cbn [app]. f_equal. f_equal.
      rewrite <- seq_shift, flat_map_concat_map, flat_map_concat_map, map_map. f_equal.
      apply map_ext. intro i. rewrite Sh. reflexivity.
Qed.

(** ** What is reported when a later call for a line raises *)
Section Later.
  Context {A : Type} (azero : A).
  Variable raises : list cplx -> option exn.
  Variable f_zero : cplx -> bool.
  Variable dphase : cplx -> cplx -> A.
  Variable large : A -> bool.
  Variable factor : nat -> A -> nat.
  Variable close : cplx -> cplx -> bool.
  Variable numPts : nat.
  Variable precision : Z * Z.

  Lemma refining_reported fuel : forall idx zs phis zeros found e,
    raising_phi_loop azero raises f_zero dphase large factor close numPts precision fuel idx zs phis zeros = Fails found e ->
    exists n i z p ze a b size found',
      phi_loop azero f_zero dphase large factor close numPts precision n i z p ze
        = phi_loop azero f_zero dphase large factor close numPts precision fuel idx zs phis zeros /\
      raising_genFuncArr raises f_zero precision (pred n) a b size = Fails found' e /\ found = ze ++ found'.
  Proof.
    induction fuel as [|n IH]; intros idx zs phis zeros found e.
    - cbn [raising_phi_loop]. destruct (first_index large phis); discriminate.
    - cbn [raising_phi_loop]. destruct (first_index large phis) as [k|] eqn:F; [|discriminate]. cbv zeta.
      destruct (close _ _) eqn:Cl; [discriminate|]. destruct (Nat.ltb _ _) eqn:Lt; [discriminate|].
      destruct (samples_cut (fun _ => True) raises (fun _ _ _ => Logic.I) f_zero precision n
        (nth k zs (0, 0)%Q) (nth (S k) zs (0, 0)%Q) (factor (S idx) (nth k phis azero))) as [H|(fo & x & H & _)]; rewrite H.
      + destruct (genFuncArr _ _ _ _ _ _) as [[zRef fo]|] eqn:G; [|discriminate]. intro U.
        destruct (IH _ _ _ _ _ _ U) as (n1 & i & z & p & ze & a & b & size & found' & P & R & Q).
        exists n1, i, z, p, ze, a, b, size, found'. split; [|split; assumption]. rewrite P.
        cbn [phi_loop]. rewrite F. cbv zeta. rewrite Cl, Lt, G. reflexivity.
      + intro U. injection U as <- ->. exists (S n), idx, zs, phis, zeros. do 3 eexists. exists fo.
        split; [reflexivity|]. split; [exact H|reflexivity].
  Qed.
End Later.

Section LaterQuad.
  Variables (raises raises_df : list cplx -> option exn).
  Variable f_zero : cplx -> bool.
  Variable g : cplx -> R * R.
  Variable romb : list R -> R -> R.
  Variable small : R -> bool.
  Variable precision : Z * Z.

  Lemma derivative_reported fuel a b size found e :
    raising_samples raises raises_df f_zero precision fuel a b size = Fails found e ->
    raising_genFuncArr raises f_zero precision fuel a b size = Fails found e \/
    exists zs, raising_genFuncArr raises f_zero precision fuel a b size = Returns (Some (zs, found)) /\ raises_df zs = Some e.
  Proof.
    unfold raising_samples. destruct (raising_genFuncArr _ _ _ _ _ _ _) as [[[zs fo]|]|fo x]; try discriminate.
    - destruct (raises_df zs) as [x|] eqn:D; [|discriminate]. intro U. injection U as <- <-. right. exists zs. auto.
    - intro U. left. exact U.
  Qed.

  Lemma doubling_reported d fuel : forall s found e,
    raising_quad_loop raises raises_df f_zero g romb small precision d fuel s = Fails found e ->
    exists n s' a b size found',
      quad_loop f_zero g romb small precision d n s' = quad_loop f_zero g romb small precision d fuel s /\
      raising_samples raises raises_df f_zero precision (pred n) a b size = Fails found' e /\ found = q_found s' ++ found'.
  Proof.
    induction fuel as [|n IH]; intros s found e.
    - cbn [raising_quad_loop]. destruct (Nat.leb (samplePts s) MAX_SAMPLE_POINTS); discriminate.
    - cbn [raising_quad_loop]. destruct (Nat.leb (samplePts s) MAX_SAMPLE_POINTS) eqn:M; [|discriminate]. cbv zeta.
      destruct (Nat.leb _ (samplePts s)) eqn:T.
      + match goal with |- context [raising_samples raises raises_df f_zero precision n ?a ?b ?k] =>
          destruct (both_cut (fun _ => True) raises raises_df (fun _ _ _ => Logic.I) (fun _ _ _ => Logic.I) f_zero precision n a b k)
            as [H|(fo & x & H & _)]; rewrite H end.
        * destruct (genFuncArr _ _ _ _ _ _) as [[zs fo]|] eqn:G; [|discriminate].
          destruct (mergeArray (q_z s) zs) eqn:Z1; [|discriminate]. destruct (mergeArray (q_func s) (map g zs)) eqn:Z2; [|discriminate].
          destruct (_ && _) eqn:B; [discriminate|]. intro U.
          destruct (IH _ _ _ U) as (n1 & s1 & a & b & size & found' & P & R & Q).
          exists n1, s1, a, b, size, found'. split; [|split; assumption]. rewrite P.
          cbn [quad_loop]. rewrite M. cbv zeta. rewrite T, G, Z1, Z2, B. reflexivity.
        * intro U. injection U as <- ->. exists (S n), s. do 3 eexists. exists fo. split; [reflexivity|]. split; [exact H|reflexivity].
      + match goal with |- context [raising_samples raises raises_df f_zero precision n ?a ?b ?k] =>
          destruct (both_cut (fun _ => True) raises raises_df (fun _ _ _ => Logic.I) (fun _ _ _ => Logic.I) f_zero precision n a b k)
            as [H|(fo & x & H & _)]; rewrite H end.
        * destruct (genFuncArr _ _ _ _ _ _) as [[zs fo]|] eqn:G; [|discriminate].
          destruct (_ && _) eqn:B; [discriminate|]. intro U.
          destruct (IH _ _ _ U) as (n1 & s1 & a & b & size & found' & P & R & Q).
          exists n1, s1, a, b, size, found'. split; [|split; assumption]. rewrite P.
          cbn [quad_loop]. rewrite M. cbv zeta. rewrite T, G, B. reflexivity.
        * intro U. injection U as <- ->. exists (S n), s. do 3 eexists. exists fo. split; [reflexivity|]. split; [exact H|reflexivity].
  Qed.
End LaterQuad.
