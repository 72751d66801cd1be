(** What one job leaves in the internal line caches for the job above it. *)
From Coq Require Import Reals Qreals Qminmax.
From Verif Require Import PyBase Rounding_Model Poly_Model Container_Model Finder_Model Finder_Spec
  Refine_Model Refine_Spec Refine_Proofs Zeros_Spec Zeros_Proofs Cache_Model Cache_Spec Cache_Proofs
  Sum_Model Sum_Spec Angle_Proofs Sum_Proofs Sum_Proofs2 Sum_Proofs3 Sum_Proofs4 Sum_Proofs5 Sum_Proofs6
  Arg_Spec Arg_Proofs Arg_Proofs2 Arg_Proofs3 Arg_Proofs4
  EndToEnd_Model EndToEnd_Spec EndToEnd_Proofs Whole_Model Whole_Grid Whole_Entry Whole_Inv Whole_Search Whole_Spec Whole_Proofs
  Whole_Proofs3 Chunk_Model Chunk_Spec.
From Coq Require Import Lqa Lra.
Open Scope R_scope.

(** ** New entries are on the line asked for *)
Lemma retrieve_keys {A} azero aadd aopp fz dp lg fc cl n prec et co pt level fuel t1 t2 (c : lcache A) c' found phi l t s v :
  retrieveCached azero aadd aopp fz dp lg fc cl n prec et co pt level fuel 0 t1 t2 c = LineOk c' found phi ->
  cached c' l 0 t s = Some v ->
  cached c l 0 t s = Some v \/
  ((l == level)%Q /\ match s with StartSide => t == Qmin t1 t2 | EndSide => t == Qmax t1 t2 end)%Q.
Proof.
  intros H Hc.
  set (s1 := if Qle_bool t1 t2 then t1 else t2). set (s2 := if Qle_bool t1 t2 then t2 else t1).
  assert (E1 : (s1 == Qmin t1 t2)%Q).
  { unfold s1. destruct (Qle_bool t1 t2) eqn:X; [apply Qle_bool_iff in X; symmetry; apply Q.min_l, X|].
    symmetry. apply Q.min_r. apply Qleb_false in X. Lqa.lra. }
  assert (E2 : (s2 == Qmax t1 t2)%Q).
  { unfold s2. destruct (Qle_bool t1 t2) eqn:X; [apply Qle_bool_iff in X; symmetry; apply Q.max_r, X|].
    symmetry. apply Q.max_l. apply Qleb_false in X. Lqa.lra. }
  assert (ST : forall w (c0 : lcache A), dget okey_eqb (level, 0%Z) c0 <> None ->
    (forall l' t' s', cached c0 l' 0 t' s' = cached c l' 0 t' s') -> c' = storeCache level 0 s1 s2 w c0 ->
    cached c l 0 t s = Some v \/
    ((l == level)%Q /\ match s with StartSide => t == Qmin t1 t2 | EndSide => t == Qmax t1 t2 end)%Q).
  { intros w c0 HN HC ->. rewrite cached_store in Hc by exact HN. rewrite HC in Hc.
    unfold okey_eqb, skey_eqb in Hc. cbn [fst snd Z.eqb] in Hc. rewrite andb_true_r in Hc.
    destruct (Qeq_bool l level) eqn:X; [|left; exact Hc]. apply Qeq_bool_iff in X.
    destruct s; cbn [side_eqb] in Hc; rewrite ?andb_true_r, ?andb_false_r in Hc.
    - destruct (Qeq_bool t s1) eqn:Y; [|left; exact Hc]. apply Qeq_bool_iff in Y. right. split; [exact X|]. rewrite Y. exact E1.
    - destruct (Qeq_bool t s2) eqn:Y; [|left; exact Hc]. apply Qeq_bool_iff in Y. right. split; [exact X|]. rewrite Y. exact E2. }
  unfold retrieveCached in H. fold s1 s2 in H.
  destruct (dget okey_eqb (level, 0%Z) c) as [d|] eqn:DL.
  2:{ destruct (genPhiArr _ _ _ _ _ _ _ _ _ _ _) as [zs phis zz|e|]; try discriminate. injection H as H _ _.
      apply (ST (zs, phis) (dset okey_eqb (level, 0%Z) [] c)).
      - rewrite (dget_dset okey_eqb okey_t okey_s), okey_r. discriminate.
      - intros l' t' s'. unfold cached. rewrite (dget_dset okey_eqb okey_t okey_s).
        destruct (okey_eqb (l', 0%Z) (level, 0%Z)) eqn:K; [|reflexivity].
        rewrite (dget_cong okey_eqb okey_t okey_s _ _ c K), DL. reflexivity.
      - symmetry. exact H. }
  assert (DN : dget okey_eqb (level, 0%Z) c <> None) by congruence.
  repeat match type of H with
  | match ?x with _ => _ end = _ => destruct x; try discriminate
  | (if ?x then _ else _) = _ => destruct x; try discriminate
  end; injection H as H _ _; symmetry in H; exact (ST _ c DN (fun _ _ _ => eq_refl) H).
Qed.

Lemma line_keys f delta mp n prec fuel a b st h l t s v :
  cached (line_cache h (fst (sum_line f delta mp n prec fuel 0 a b st))) l 0 t s = Some v ->
  cached (line_cache h st) l 0 t s = Some v \/
  (on_level a b h l /\
   match s with StartSide => t == Qmin (coord_of h a) (coord_of h b) | EndSide => t == Qmax (coord_of h a) (coord_of h b) end)%Q.
Proof.
  unfold sum_line, sumLine, line_cache.
  destruct (Qeq_bool (im a) (im b)) eqn:E1.
  - apply Qeq_bool_iff in E1.
    destruct (retrieveCached _ _ _ _ _ _ _ _ _ _ _ _ _ _ _ _ _ _ _) as [c' found phi|e|] eqn:R; cbn [fst]; auto.
    cbn [horizontal vertical]. destruct h; [|auto]. intro H.
    destruct (retrieve_keys _ _ _ _ _ _ _ _ _ _ _ _ _ _ _ _ _ _ _ _ _ l t s v R H) as [X|[X Y]]; [left; exact X|right].
    split; [split; [exact E1|symmetry; exact X]|]. exact Y.
  - destruct (Qeq_bool (re a) (re b)) eqn:E2; [|auto]. apply Qeq_bool_iff in E2.
    destruct (retrieveCached _ _ _ _ _ _ _ _ _ _ _ _ _ _ _ _ _ _ _) as [c' found phi|e|] eqn:R; cbn [fst]; auto.
    cbn [horizontal vertical]. destruct h; [auto|]. intro H.
    destruct (retrieve_keys _ _ _ _ _ _ _ _ _ _ _ _ _ _ _ _ _ _ _ _ _ l t s v R H) as [X|[X Y]]; [left; exact X|right].
    split; [split; [exact E2|symmetry; exact X]|]. exact Y.
Qed.

(** ** One job *)
Section Job.
  Variables (f : cplx -> cR) (zeros : list point) (L eta : R) (rho theta : cplx -> R).
  Hypothesis f_proper : forall z z', ceq z z' -> f z = f z'.
  Hypothesis L_pos : 0 <= L.
  Hypothesis eta_small : eta < PI.
  Variables (turns : R -> Q) (delta : R) (mp : Q) (n : nat) (eprec : Z * Z) (fuel : nat) (debug : bool)
    (secant : cplx -> cplx -> res cplx) (newton : cplx -> res cplx)
    (polyroots : list cplx -> res (list cplx)) (has_df progress : bool).
  Hypothesis delta_pos : 0 < delta.
  Hypothesis n_big : (2 <= n)%nat.
  Hypothesis fuel_big : (100 * n + 3 <= fuel)%nat.
  Notation E := (sum_env turns f delta mp n eprec fuel debug secant newton polyroots has_df progress).
  Notation line := (turn_line turns f delta mp n eprec fuel).
  Variable x : rctx.
  Notation R0 := (rect_of x).
  Notation P := (cx_precision x).
  Hypothesis wide0 : (x1 R0 < x2 R0 /\ y1 R0 < y2 R0)%Q.
  Hypothesis f_eq : forall z, in_rect R0 z -> 0 < rho z /\
       f z = cmulR (zero_product zeros z) (rho z * cos (theta z), rho z * sin (theta z)).
  Hypothesis theta_lip : forall z z', in_rect R0 z -> in_rect R0 z' ->
       Rabs (theta z' - theta z) <= L * (Rabs (Q2R (re z' - re z)) + Rabs (Q2R (im z' - im z))).
  Hypothesis sampled : forall q, cell_of P R0 q -> well_sampled n eta L zeros q.
  Notation valid := (valid f zeros R0 theta eta (gap R0 n true) true).

  (** Everything in the caches is below the level [y], except entries for the whole width of
      the job on this level. *)
  Definition lower (D : rect) (y : Q) (st : sum_state R) : Prop :=
    (forall l t s v, cached (vertical st) l 0 t s = Some v ->
       match s with StartSide => t < y | EndSide => t <= y end)%Q /\
    (forall l t s v, cached (horizontal st) l 0 t s = Some v ->
       (l < y)%Q \/
       ((l == y)%Q /\ (match s with StartSide => t == x1 D | EndSide => t == x2 D end)%Q /\
        Whole_Entry.valid f zeros D theta eta (gap D n true) true y (x1 D) (x2 D) v)).
  Notation J := (lower R0 (y2 R0)).

  (** Cells on the way: below the upper side, or of full width. *)
  Definition tame (q : rect) : Prop :=
    (x1 q < x2 q)%Q /\ (y1 q < y2 q)%Q /\ inside R0 q /\
    ((y2 q < y2 R0)%Q \/ ((x1 q == x1 R0)%Q /\ (x2 q == x2 R0)%Q)).

  Lemma mid_between a b : (a < b)%Q -> (a < (a + b) / 2 /\ (a + b) / 2 < b)%Q.
  Proof.
    intro H. assert (X : ((a + b) / 2 == (a + b) * (1 # 2))%Q) by reflexivity. rewrite X. split; Lqa.lra.
  Qed.

  Lemma line_lower q e st : cell_of P R0 q -> tame q -> In e (edges q) -> J st -> J (fst (fst (line 0 (fst e) (snd e) st))).
  Proof.
    intros HC (W1 & W2 & (I1 & I2 & I3 & I4) & T) He HJ.
    assert (ET : fst (fst (line 0 (fst e) (snd e) st)) = fst (sum_line f delta mp n eprec fuel 0 (fst e) (snd e) st)).
    { unfold turn_line. destruct (sum_line f delta mp n eprec fuel 0 (fst e) (snd e) st) as [st' [a b|a|]]; reflexivity. }
    rewrite ET. clear ET. destruct HJ as [J1 J2].
    assert (NV : forall l t s v, cached (vertical (fst (sum_line f delta mp n eprec fuel 0 (fst e) (snd e) st))) l 0 t s = Some v ->
       (match s with StartSide => t < y2 R0 | EndSide => t <= y2 R0 end)%Q).
    { intros l t s v H. destruct (line_keys f delta mp n eprec fuel (fst e) (snd e) st false l t s v H) as [X|[X Y]]; [exact (J1 l t s v X)|].
      cbn [on_level coord_of] in X, Y. rewrite edges_keys in He. destruct X as [X _].
      assert (M1 : (Qmin (y1 q) (y2 q) == y1 q)%Q) by (apply Q.min_l; Lqa.lra).
      assert (M2 : (Qmin (y2 q) (y1 q) == y1 q)%Q) by (apply Q.min_r; Lqa.lra).
      assert (M3 : (Qmax (y1 q) (y2 q) == y2 q)%Q) by (apply Q.max_r; Lqa.lra).
      assert (M4 : (Qmax (y2 q) (y1 q) == y2 q)%Q) by (apply Q.max_l; Lqa.lra).
      destruct He as [<-|[<-|[<-|[<-|[]]]]]; cbn [ekey fst snd re im] in X, Y; try (exfalso; Lqa.lra);
        destruct s; rewrite ?M1, ?M2, ?M3, ?M4 in Y; rewrite Y; Lqa.lra. }
    split; [exact NV|].
    destruct (Qlt_le_dec (y2 q) (y2 R0)) as [HL|HG].
    - (* below the upper side *)
      intros l t s v H. destruct (line_keys f delta mp n eprec fuel (fst e) (snd e) st true l t s v H) as [X|[X Y]]; [exact (J2 l t s v X)|].
      left. cbn [on_level] in X. rewrite edges_keys in He. destruct X as [X1 X2].
      destruct He as [<-|[<-|[<-|[<-|[]]]]]; cbn [ekey fst snd re im] in X1, X2; try (exfalso; Lqa.lra); rewrite <- X2; Lqa.lra.
    - destruct T as [T|[T1 T2]]; [exfalso; Lqa.lra|].
      assert (EY : (y2 q == y2 R0)%Q) by Lqa.lra.
      rewrite edges_keys in He. destruct He as [<-|[<-|[<-|[<-|[]]]]].
      + intros l t s v H. destruct (line_keys f delta mp n eprec fuel _ _ st true l t s v H) as [X|[[X1 X2] Y]]; [exact (J2 l t s v X)|].
        left. cbn [ekey fst snd re im] in X1, X2. rewrite <- X2. Lqa.lra.
      + intros l t s v H. destruct (line_keys f delta mp n eprec fuel _ _ st true l t s v H) as [X|[[X1 X2] Y]]; [exact (J2 l t s v X)|].
        cbn [ekey fst snd re im] in X1, X2. exfalso. Lqa.lra.
      + (* the upper side itself *)
        cbn [ekey fst snd]. rewrite sum_line_swap by Lqa.lra. cbn [fst].
        assert (FI : fine f zeros R0 theta eta n true (y2 q) (x1 q) (x2 q)).
        { apply (sampled_fine f zeros L R0 rho theta L_pos f_eq theta_lip eta n q n_big).
          - repeat split; assumption.
          - split; assumption.
          - exact (sampled q HC).
          - cbn. tauto. }
        assert (VQ : forall v, valid (y2 R0) (x1 R0) (x2 R0) v -> valid (y2 q) (x1 q) (x2 q) v).
        { intro v. apply (valid_eq f zeros L R0 theta f_proper theta_lip eta); symmetry; assumption. }
        destruct (request_line f zeros R0 theta f_proper eta eta_small (gap R0 n true) delta mp n eprec fuel
          delta_pos n_big fuel_big true (y2 q) (x1 q) (x2 q) st FI) as [(st' & ph & v & R1 & R2 & R3 & R4 & R5)|(H1 & _)].
        * unfold gap. apply Qmult_le_r; [apply Qinv_lt_0_compat, steps_count, n_big|]. Lqa.lra.
        * intros v Hv. exists (x2 q). split; [apply Qle_refl|]. cbn [line_cache] in Hv.
          destruct (J2 _ _ _ _ Hv) as [X|(_ & _ & X)]; [exfalso; Lqa.lra|exact (VQ v X)].
        * intros v Hv. exists (x1 q). split; [apply Qle_refl|]. cbn [line_cache] in Hv.
          destruct (J2 _ _ _ _ Hv) as [X|(_ & _ & X)]; [exfalso; Lqa.lra|exact (VQ v X)].
        * cbn [mkpoint] in R1. rewrite R1. cbn [fst]. intros l t s w Hw.
          cbn [line_cache] in R5. rewrite R5 in Hw. destruct (hit true (y2 q) (x1 q) (x2 q) l t s) eqn:HH; [|exact (J2 l t s w Hw)].
          injection Hw as <-. unfold hit in HH. apply andb_true_iff in HH as [HH1 HH2]. apply Qeq_bool_iff in HH1.
          right. split; [rewrite HH1; exact EY|]. split.
          -- destruct s; apply Qeq_bool_iff in HH2; rewrite HH2; assumption.
          -- revert R3. apply (valid_eq f zeros L R0 theta f_proper theta_lip eta); assumption.
        * discriminate.
      + intros l t s v H. destruct (line_keys f delta mp n eprec fuel _ _ st true l t s v H) as [X|[[X1 X2] Y]]; [exact (J2 l t s v X)|].
        cbn [ekey fst snd re im] in X1, X2. exfalso. Lqa.lra.
  Qed.

  Lemma loop_lower (K : sum_state R -> Prop) es : (forall e st, In e es -> K st -> K (fst (fst (line 0 (fst e) (snd e) st)))) ->
    forall phi s, K (snd s) -> K (snd (fst (fst (moment_loop line debug 0 es phi s)))).
  Proof.
    induction es as [|[a b] es IH]; intros HE phi [c st] F; [exact F|]. cbn [moment_loop snd] in *.
    specialize (IH (fun e st He => HE e st (or_intror He))).
    cbn [fst]. destruct (ec_retrieve debug 0 a b c) as [c1 found] eqn:R.
    pose proof (HE (a, b) st (or_introl eq_refl) F) as FT. cbn [fst snd] in FT.
    destruct (truthy found).
    - exact (IH _ (c1, st) F).
    - destruct (line 0 a b st) as [[st1 zs] [v|e]]; cbn [fst snd] in *; [|exact FT].
      match goal with |- context [moment_loop line debug 0 es ?p ?s'] => pose proof (IH p s' FT) as X;
        destruct (moment_loop line debug 0 es p s') as [[s2 zs2] r2] end. exact X.
  Qed.
  Lemma moment_lower q s : cell_of P R0 q -> tame q -> J (snd s) -> J (snd (fst (fst (cached_moment line debug 0 q s)))).
  Proof. intros HC HT. apply loop_lower. intros e st He. exact (line_lower q e st HC HT He). Qed.

  Notation E' := (repaired zeros (env_for E x)).
  Notation keeps m := (forall s, J (snd s) -> J (snd (fst (fst (m s))))).
  (** Keeps the caches in order; a result satisfies [Q]. *)
  Definition keeps_with {A} (m : @M (ecache * sum_state R) A) (Q : A -> Prop) : Prop :=
    forall s, J (snd s) -> J (snd (fst (fst (m s)))) /\ forall a, snd (m s) = Done a -> Q a.

  Lemma kw_bind {A B} (m : @M (ecache * sum_state R) A) (k : A -> @M (ecache * sum_state R) B) Q Q' :
    keeps_with m Q -> (forall a, Q a -> keeps_with (k a) Q') -> keeps_with (mbind m k) Q'.
  Proof.
    intros H1 H2 s F. destruct (H1 s F) as [K1 K2]. unfold mbind. destruct (m s) as [[s1 l1] [a|e|]]; cbn [fst snd] in *;
      try (split; [exact K1|intros; discriminate]).
    destruct (H2 a (K2 a eq_refl) s1 K1) as [K3 K4]. destruct (k a s1) as [[s2 l2] o]. cbn [fst snd] in *. auto.
  Qed.
  Lemma kw_seq {A B} (m : @M (ecache * sum_state R) A) (k : @M (ecache * sum_state R) B) Q Q' :
    keeps_with m Q -> keeps_with k Q' -> keeps_with (mseq m k) Q'.
  Proof. intros H1 H2. apply (kw_bind m _ Q Q' H1). intros; exact H2. Qed.
  Lemma kw_pure {A} (m : @M (ecache * sum_state R) A) : (forall s, snd (fst (fst (m s))) = snd s) -> keeps_with m (fun _ => True).
  Proof. intros H s F. rewrite H. split; [exact F|]. intros; exact Logic.I. Qed.

  Definition honest (q : rect) (phi : Q) : Prop := Qltb phi TWO_PI = false -> count zeros q <> O.

  Lemma kw_moment q : cell_of P R0 q -> tame q -> keeps_with (calcMoment E' 0 q) (fun m => honest q (re m)).
  Proof.
    intros HC HT s F. unfold calcMoment. cbn [e_est repaired env_for sum_env cached_env].
    pose proof (moment_lower q s HC HT F) as X.
    destruct (cached_moment line debug 0 q s) as [[s' zs] v]. cbn [fst snd] in X.
    assert (C : forall m, (Qabs (re m - inject_Z (Z.of_nat (count zeros q))) <= 1 # 5)%Q -> honest q (re m)).
    { intros m Hm Hp C. rewrite C in Hm. apply Qltb_false in Hp. apply Qabs_Qle_condition in Hm.
      unfold TWO_PI in Hp. change (inject_Z (Z.of_nat 0)) with 0%Q in Hm. Lqa.lra. }
    destruct (accurate zeros q zs v) eqn:A; cbn [fst snd].
    - unfold accurate in A. destruct zs; [|discriminate]. destruct v as [m|e]; [|discriminate].
      split; [exact X|]. intros a Ha. injection Ha as <-. apply C. apply Qle_bool_iff. exact A.
    - split; [exact X|]. intros a Ha. injection Ha as <-. apply C. cbn [re fst].
      setoid_replace (inject_Z (Z.of_nat (count zeros q)) - inject_Z (Z.of_nat (count zeros q)))%Q with 0%Q by ring. discriminate.
  Qed.
  Lemma kw_refined q : cell_of P R0 q -> tame q -> keeps_with (calculateRefinedMoment E' q) (honest q).
  Proof.
    intros HC HT. unfold calculateRefinedMoment. apply (kw_bind _ _ _ _ (kw_moment q HC HT)).
    intros m Hm s F. split; [exact F|]. intros a Ha. injection Ha as <-. exact Hm.
  Qed.

  Hypothesis upper_ok : upper_side_whole zeros P R0.
  Variable v : variant.
  Hypothesis HV : v <> PolyV.

  Lemma kw_simple depth :
    (forall q phi, cell_of P R0 q -> tame q -> honest q phi -> keeps_with (decideRefinement E' v depth q phi) (fun _ => True)) ->
    forall q phi, cell_of P R0 q -> tame q -> honest q phi ->
      keeps_with (decide_simple E' (decideRefinement E' v depth) q phi) (fun _ => True).
  Proof.
    intros IH q phi HC HT HH. unfold decide_simple. unfold honest in HH.
    destruct (Qltb phi TWO_PI); [apply kw_pure; reflexivity|]. specialize (HH eq_refl).
    destruct (Qltb (deltaRe q) (epsRe E') && Qltb (deltaIm q) (epsIm E')) eqn:ST; [apply kw_pure; reflexivity|].
    assert (NS : ~ sub_tolerance P q).
    { intros [S1 S2]. apply andb_false_iff in ST. unfold deltaRe, deltaIm, epsRe, epsIm in ST. cbn [e_precision repaired env_for] in ST.
      destruct ST as [ST|ST]; apply Qltb_false in ST; Lqa.lra. }
    assert (RM : forall a b, keeps_with (cacheRemove E' a b) (fun _ => True)) by (intros a b; apply kw_pure; reflexivity).
    destruct HT as (W1 & W2 & (I1 & I2 & I3 & I4) & T).
    destruct (Qltb (deltaIm q / epsIm E') (deltaRe q / epsRe E')) eqn:W.
    - apply Qltb_true in W. cbv zeta.
      assert (W' : wider P q) by exact W.
      assert (TL : (y2 q < y2 R0)%Q).
      { destruct (Qlt_le_dec (y2 q) (y2 R0)) as [H|H]; [exact H|]. exfalso. apply HH. apply upper_ok; try assumption. Lqa.lra. }
      destruct (mid_between (x1 q) (x2 q) W1) as [M1 M2].
      assert (C1 : cell_of P R0 (mkRect (x1 q) ((x1 q + x2 q) / 2) (y1 q) (y2 q))) by (apply cell_left; assumption).
      assert (C2 : cell_of P R0 (mkRect ((x1 q + x2 q) / 2) (x2 q) (y1 q) (y2 q))) by (apply cell_right; assumption).
      assert (T1 : tame (mkRect (x1 q) ((x1 q + x2 q) / 2) (y1 q) (y2 q))).
      { split; [exact M1|]. split; [exact W2|]. split; [repeat split; cbn [x1 x2 y1 y2]; Lqa.lra|]. left. exact TL. }
      assert (T2 : tame (mkRect ((x1 q + x2 q) / 2) (x2 q) (y1 q) (y2 q))).
      { split; [exact M2|]. split; [exact W2|]. split; [repeat split; cbn [x1 x2 y1 y2]; Lqa.lra|]. left. exact TL. }
      apply (kw_bind _ _ _ _ (kw_refined _ C1 T1)). intros p1 H1. apply (kw_seq _ _ _ _ (IH _ _ C1 T1 H1)).
      apply (kw_seq _ _ _ _ (RM _ _)). apply (kw_bind _ _ _ _ (kw_refined _ C2 T2)). intros p2 H2.
      apply (kw_seq _ _ _ _ (IH _ _ C2 T2 H2)). apply RM.
    - apply Qltb_false in W. cbv zeta.
      assert (NW : ~ wider P q) by (unfold wider; intro C; exact (Qlt_not_le _ _ C W)).
      destruct (mid_between (y1 q) (y2 q) W2) as [M1 M2].
      assert (C1 : cell_of P R0 (mkRect (x1 q) (x2 q) (y1 q) ((y1 q + y2 q) / 2))) by (apply cell_bottom; assumption).
      assert (C2 : cell_of P R0 (mkRect (x1 q) (x2 q) ((y1 q + y2 q) / 2) (y2 q))) by (apply cell_top; assumption).
      assert (T1 : tame (mkRect (x1 q) (x2 q) (y1 q) ((y1 q + y2 q) / 2))).
      { split; [exact W1|]. split; [exact M1|]. split; [repeat split; cbn [x1 x2 y1 y2]; Lqa.lra|]. left. cbn [y2]. Lqa.lra. }
      assert (T2 : tame (mkRect (x1 q) (x2 q) ((y1 q + y2 q) / 2) (y2 q))).
      { split; [exact W1|]. split; [exact M2|]. split; [repeat split; cbn [x1 x2 y1 y2]; Lqa.lra|]. exact T. }
      apply (kw_bind _ _ _ _ (kw_refined _ C1 T1)). intros p1 H1. apply (kw_seq _ _ _ _ (IH _ _ C1 T1 H1)).
      apply (kw_seq _ _ _ _ (RM _ _)). apply (kw_bind _ _ _ _ (kw_refined _ C2 T2)). intros p2 H2.
      apply (kw_seq _ _ _ _ (IH _ _ C2 T2 H2)). apply RM.
  Qed.

  Lemma kw_newton q phi : keeps_with (newton_branch E' q phi) (fun _ => True).
  Proof.
    apply kw_pure. intro s. unfold newton_branch, mseq, mbind, emit, advance, ret, raise.
    destruct (e_secant E' _ _) as [z|e].
    - destruct (e_has_df E').
      + destruct (e_newton E' _) as [w|e]; [reflexivity|]. cbn [fst snd]. destruct (catches_RuntimeError e); reflexivity.
      + reflexivity.
    - cbn [fst snd]. destruct (catches_RuntimeError e); reflexivity.
  Qed.

  Lemma kw_decide depth : forall q phi, cell_of P R0 q -> tame q -> honest q phi ->
    keeps_with (decideRefinement E' v depth q phi) (fun _ => True).
  Proof.
    induction depth as [|depth IH]; intros q phi HC HT HH.
    - apply kw_pure. reflexivity.
    - pose proof (kw_simple depth IH q phi HC HT HH) as HS. clear IH. cbn [decideRefinement].
      destruct v; [exact HS| |congruence]. unfold decide_newton.
      destruct (Qltb TWO_PI phi && Qltb (deltaRe q) (epsRe E') && Qltb (deltaIm q) (epsIm E')); [apply kw_pure; reflexivity|].
      match goal with |- context [if ?c then newton_branch E' _ _ else _] => destruct c end; [apply kw_newton|exact HS].
  Qed.

  Lemma run_lower depth s : J (snd s) -> J (snd (fst (fst (calcRoots E' v depth R0 s)))).
  Proof.
    intro F. unfold calcRoots. set (s0 := if e_dirty E' s then e_reset E' s else s).
    assert (F0 : J (snd s0)) by (unfold s0; cbn [e_dirty e_reset repaired env_for sum_env cached_env]; destruct (ec_dirty (fst s)); exact F).
    assert (HT : tame R0).
    { split; [apply wide0|]. split; [apply wide0|]. split; [repeat split; apply Qle_refl|]. right. split; reflexivity. }
    apply (kw_bind _ (fun m => decideRefinement E' v depth R0 (re m)) _ (fun _ => True) (kw_moment R0 (cell_whole _ _) HT)); [|exact F0].
    intros m Hm. apply kw_decide; [constructor|exact HT|exact Hm].
  Qed.

  (** An old state with everything below the lower side is harmless. *)
  Definition from_below (h : bool) (l t : Q) (s : side) (w : entry R) : Prop :=
    if h then (l < y1 R0)%Q \/
       ((l == y1 R0)%Q /\ (match s with StartSide => t == x1 R0 | EndSide => t == x2 R0 end)%Q /\ valid (y1 R0) (x1 R0) (x2 R0) w)
    else (match s with StartSide => t < y1 R0 | EndSide => t <= y1 R0 end)%Q.
  Lemma below_start p i l t w : vpath R0 P p -> from_below (ehor i) l t StartSide w ->
    (l == elevel (cell P R0 p) i)%Q -> (t == elo (cell P R0 p) i)%Q ->
    exists b, (ehi (cell P R0 p) i <= b)%Q /\
      Whole_Entry.valid f zeros R0 theta eta (gap R0 n (ehor i)) (ehor i) (elevel (cell P R0 p) i) (elo (cell P R0 p) i) b w.
  Proof.
    intros Vp HO Hl Ht. destruct (cell_inside R0 P wide0 p) as (A & B & C & D).
    destruct (cell_wide P R0 wide0 p) as [W1 W2].
    unfold from_below in HO. destruct i; cbn [ehor elevel] in *; unfold elo, ehi in *; cbn [ehor] in *; try (exfalso; Lqa.lra).
    - destruct HO as [HO|(HO1 & HO2 & HO3)]; [exfalso; Lqa.lra|]. exists (x2 R0). split; [exact B|].
      revert HO3. apply (valid_eq f zeros L R0 theta f_proper theta_lip eta); [Lqa.lra|Lqa.lra|reflexivity].
  Qed.
  Lemma below_end p i l t w : vpath R0 P p -> from_below (ehor i) l t EndSide w ->
    (l == elevel (cell P R0 p) i)%Q -> (t == ehi (cell P R0 p) i)%Q ->
    exists a, (a <= elo (cell P R0 p) i)%Q /\
      Whole_Entry.valid f zeros R0 theta eta (gap R0 n (ehor i)) (ehor i) (elevel (cell P R0 p) i) a (ehi (cell P R0 p) i) w.
  Proof.
    intros Vp HO Hl Ht. destruct (cell_inside R0 P wide0 p) as (A & B & C & D).
    destruct (cell_wide P R0 wide0 p) as [W1 W2].
    unfold from_below in HO. destruct i; cbn [ehor elevel] in *; unfold elo, ehi in *; cbn [ehor] in *; try (exfalso; Lqa.lra).
    - destruct HO as [HO|(HO1 & HO2 & HO3)]; [exfalso; Lqa.lra|]. exists (x1 R0). split; [exact A|].
      revert HO3. apply (valid_eq f zeros L R0 theta f_proper theta_lip eta); [Lqa.lra|reflexivity|Lqa.lra].
  Qed.
  Lemma lower_from_below st : lower R0 (y1 R0) st ->
    forall h l t s w, grid_level R0 P h l -> cached (line_cache h st) l 0 t s = Some w -> from_below h l t s w.
  Proof. intros [H1 H2] h l t s w _ H. destruct h; [exact (H2 l t s w H)|exact (H1 l t s w H)]. Qed.
  Lemma lower_raise st : lower R0 (y1 R0) st -> J st.
  Proof.
    intros [H1 H2]. destruct wide0 as [_ W]. split.
    - intros l t s w H. specialize (H1 l t s w H). destruct s; Lqa.lra.
    - intros l t s w H. left. destruct (H2 l t s w H) as [X|[X _]]; Lqa.lra.
  Qed.
End Job.

Lemma fresh_lower f zeros eta theta n D y : lower f zeros eta theta n D y fresh_sum.
Proof. split; intros l t s v H; discriminate. Qed.

(** The upper side of a job is the lower side of the next one. *)
Lemma lower_next f zeros eta theta n D D' y st : x1 D = x1 D' -> x2 D = x2 D' ->
  (y1 D' <= y)%Q -> (y <= y2 D')%Q ->
  lower f zeros eta theta n D y st -> lower f zeros eta theta n D' y st.
Proof.
  intros E1 E2 H1 H2 [A B]. split; [exact A|]. intros l t s v H. destruct (B l t s v H) as [X|(X & Y & Z)]; [left; exact X|right].
  rewrite <- E1, <- E2. split; [exact X|]. split; [exact Y|].
  assert (G : gap D' n true = gap D n true) by (unfold gap; rewrite E1, E2; reflexivity). rewrite G.
  assert (CM : forall a b, calm f zeros D theta eta true y a b -> calm f zeros D' theta eta true y a b).
  { intros a b (C1 & C2 & C3 & C4). split; [exact C1|]. unfold in_rect in *. cbn [mkpoint re im fst snd] in *.
    rewrite <- E1, <- E2. split; [Lqa.lra|]. split; [Lqa.lra|exact C4]. }
  destruct Z as (pre & zl & ext & Z1 & Z2 & Z3 & Z4 & Z5 & Z6 & Z7 & Z8).
  exists pre, zl, ext. split; [exact Z1|]. split; [exact Z2|]. split.
  { revert Z3. apply chain_weaken. intros z z' (S1 & S2 & S3 & S4). split; [exact S1|]. split; [exact S2|]. split; [exact S3|apply CM, S4]. }
  split; [exact Z4|]. split; [exact Z5|]. split; [apply CM, Z6|]. split; [exact Z7|].
  destruct Z8 as [(-> & Z8 & Z9)|Z8]; [left|right; exact Z8]. split; [reflexivity|]. split; [apply CM, Z8|exact Z9].
Qed.
