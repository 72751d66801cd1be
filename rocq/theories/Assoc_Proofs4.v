(** Searches of the associated-polynomial algorithm with the quadrature estimator. *)
From Coq Require Import Reals Qreals Qminmax.
From Verif Require Import PyBase Rounding_Model Poly_Model Container_Model Container_Spec Finder_Model Finder_Spec
  Refine_Model Refine_Spec Zeros_Spec Zeros_Proofs Cache_Model Cache_Spec Cache_Proofs
  Sum_Model Sum_Spec Quad_Model Quad_Spec Quad_Proofs2 Arg_Spec Moment_Spec Moment_Proofs Moment_Proofs3 Moment_Proofs4 Moment_Proofs8
  EndToEnd_Model EndToEnd_Spec EndToEnd_Proofs EndToEnd_Proofs2 EndToEnd_Proofs3 Whole_Search Whole_Proofs Whole_Proofs2
  Qsearch_Model Qsearch_Spec Qsearch_Proofs Modulus Assoc_Spec Assoc_Proofs3 Assoc_Agree.
From Coq Require Import Lqa Lra.
Open Scope R_scope.

Section Value.
  Variables (F DF : cR -> cR).
  Notation G k := (moment_at F DF k).
  (** The value of a line. *)
  Definition lval (k : nat) (a b : cplx) : cR := line_value a b (rule romberg (called (G k)) a b 10).

  Lemma lval_rev k a b : lval k b a = neg_cR (lval k a b).
  Proof.
    unfold lval. rewrite line_rev. f_equal. f_equal.
    apply rule_rev; [intros; eapply romberg_rev; eassumption|apply called_proper].
  Qed.
  Lemma lval_cong k a b a' b' : ceq a a' -> ceq b b' -> lval k a b = lval k a' b'.
  Proof.
    intros A B. unfold lval. rewrite (rule_cong (called (G k)) a b a' b' 10 (called_proper (G k)) A B).
    destruct A as [A1 A2], B as [B1 B2]. unfold line_value, distance. rewrite !Q2R_minus.
    rewrite (Qeq_eqR _ _ A1), (Qeq_eqR _ _ A2), (Qeq_eqR _ _ B1), (Qeq_eqR _ _ B2). reflexivity.
  Qed.

  Variables (zeros : list point) (turns : R -> Q) (eps : R) (prec : Z * Z) (fuel : nat) (debug : bool).
  Hypothesis turns_ok : converts turns eps.
  Hypothesis fuel_big : (2 <= fuel)%nat.
  Notation line := (quad_turn_line turns romberg (called F) (Some (called DF)) prec fuel).
  Notation runs k a b := (quad_line romberg (called F) (Some (called DF)) prec fuel k a b = QuadOk [] (lval k a b)).
  Definition inturns (v : cR) : cR := (fst v / (2 * PI), snd v / (2 * PI)).

  Lemma sides_run q k e : (x1 q < x2 q /\ y1 q < y2 q)%Q -> integrable F DF zeros k e q -> e < 1 / 2000 ->
    (forall a b, In (a, b) (edges q) -> runs k a b) /\
    let T a b := inturns (lval k a b) in
    let S := plus_cR (T (x1 q, y1 q) (x2 q, y1 q)) (plus_cR (T (x2 q, y1 q) (x2 q, y2 q))
      (plus_cR (T (x2 q, y2 q) (x1 q, y2 q)) (T (x1 q, y2 q) (x1 q, y1 q)))) in
    Rabs (fst S - fst (power_sum zeros k q)) <= e /\ Rabs (snd S - snd (power_sum zeros k q)) <= e.
  Proof.
    intros [Hx Hy] HI He. pose proof HI as (p & Q & M & D & LD & PO & CU & Dx & Dy & HM).
    assert (SR : forall h l a b, In (h, l, a, b) (side4 q) ->
      runs k (mkpoint h l a) (mkpoint h l b) /\ runs k (mkpoint h l b) (mkpoint h l a)).
    { intros h l a b HS. rewrite (lval_rev k (mkpoint h l a)).
      exact (side_runs F DF zeros p Q M D k q Hx Hy LD PO CU Dx Dy (Rle_lt_trans _ _ _ HM He) prec fuel h l a b HS fuel_big). }
    assert (R0 : forall a b, In (a, b) (edges q) -> runs k a b).
    { intros a b H. cbn [edges In] in H.
      destruct H as [H|[H|[H|[H|[]]]]]; injection H as <- <-.
      - exact (proj1 (SR true (y1 q) (x1 q) (x2 q) ltac:(left; reflexivity))).
      - exact (proj1 (SR false (x2 q) (y1 q) (y2 q) ltac:(right; left; reflexivity))).
      - exact (proj2 (SR true (y2 q) (x1 q) (x2 q) ltac:(right; right; left; reflexivity))).
      - exact (proj2 (SR false (x1 q) (y1 q) (y2 q) ltac:(right; right; right; left; reflexivity))). }
    split; [exact R0|]. clear SR. cbv zeta.
    destruct (C73_moments_lemma F DF zeros k e q prec fuel Hx Hy HI He fuel_big) as (v1 & v2 & v3 & v4 & E1 & E2 & E3 & E4 & B1 & B2).
    rewrite R0 in E1, E2, E3, E4 by (cbn [edges In]; tauto).
    injection E1 as E1. injection E2 as E2. injection E3 as E3. injection E4 as E4.
    rewrite E1, E2, E3, E4. unfold inturns, plus_cR. cbn [fst snd].
    generalize dependent (power_sum zeros k q). intros s B1 B2.
    pose proof PI_RGT_0 as PP. pose proof Arg_Examples.PI_3 as P3.
    assert (X : forall a b c d t, Rabs (a + b + c + d - 2 * PI * t) <= 4 * e ->
      Rabs (a / (2 * PI) + (b / (2 * PI) + (c / (2 * PI) + d / (2 * PI))) - t) <= e).
    { intros a b c d t HB.
      replace (a / (2 * PI) + (b / (2 * PI) + (c / (2 * PI) + d / (2 * PI))) - t) with ((a + b + c + d - 2 * PI * t) / (2 * PI)) by (field; lra).
      unfold Rdiv. rewrite Rabs_mult, (Rabs_pos_eq (/ (2 * PI))) by (apply Rlt_le, Rinv_0_lt_compat; lra).
      apply (Rmult_le_reg_r (2 * PI)); [lra|]. rewrite Rmult_assoc, Rinv_l by lra.
      pose proof (Rabs_pos (a + b + c + d - 2 * PI * t)). nra. }
    split; apply X; assumption.
  Qed.

  Definition agrees (v : cplx) (t : cR) : Prop := Rabs (Q2R (re v) - fst t) <= eps /\ Rabs (Q2R (im v) - snd t) <= eps.
  Definition sound (c : ecache) : Prop := forall k a b v, ec_lookup (Z.of_nat k) a b c = Some v -> agrees v (inturns (lval k a b)).
  Fixpoint lsum (k : nat) (es : list ckey) : cR := match es with [] => (0, 0) | (a, b) :: es' => plus_cR (inturns (lval k a b)) (lsum k es') end.

  Lemma sound_store k a b v c : sound c -> agrees v (inturns (lval k a b)) -> sound (ec_store (Z.of_nat k) a b v c).
  Proof.
    intros HG HV k' a' b' v' H. rewrite lookup_store in H. destruct (same_key _ _ a' a b' b) eqn:K.
    - injection H as <-. unfold same_key in K. apply andb_true_iff in K. destruct K as [K1 K2]. apply andb_true_iff in K1.
      destruct K1 as [K0 K1]. apply Z.eqb_eq in K0. apply Nat2Z.inj in K0. subst k'.
      apply ceqb_eq in K1, K2. rewrite (lval_cong k a' b' a b K1 K2). exact HV.
    - exact (HG k' a' b' v' H).
  Qed.
  Lemma sound_remove a b c : sound c -> sound (ec_remove 0 a b c).
  Proof. intros HG k a' b' v' H. rewrite lookup_remove in H. destruct (same_key _ _ _ _ _ _); [discriminate|exact (HG k a' b' v' H)]. Qed.
  Lemma agrees_opp k v a b : agrees v (inturns (lval k a b)) -> agrees (copp v) (inturns (lval k b a)).
  Proof.
    rewrite (lval_rev k a b). unfold agrees, inturns, neg_cR. cbn [fst snd].
    change (re (copp v)) with (- re v)%Q. change (im (copp v)) with (- im v)%Q. rewrite !Q2R_opp.
    intros [H1 H2]. apply Rabs_def2_le in H1, H2. unfold Rdiv in *. split; apply Rabs_le; lra.
  Qed.

  Lemma loop_sound k es : forall phi c, (forall a b, In (a, b) es -> runs k a b) -> sound c ->
    exists c' m, moment_loop line debug (Z.of_nat k) es phi (c, tt) = ((c', tt), [], Ok m) /\ sound c' /\
      Rabs (Q2R (re m) - Q2R (re phi) - fst (lsum k es)) <= INR (List.length es) * eps /\
      Rabs (Q2R (im m) - Q2R (im phi) - snd (lsum k es)) <= INR (List.length es) * eps.
  Proof.
    induction es as [|[a b] es IH]; intros phi c HR HG.
    - exists c, phi. split; [reflexivity|]. split; [exact HG|]. cbn [lsum List.length INR fst snd].
      replace (Q2R (re phi) - Q2R (re phi) - 0) with 0 by ring. replace (Q2R (im phi) - Q2R (im phi) - 0) with 0 by ring.
      rewrite Rabs_R0. split; lra.
    - cbn [moment_loop fst snd]. destruct (ec_retrieve debug (Z.of_nat k) a b c) as [c1 entry] eqn:ER.
      assert (L1 : forall j x y, ec_lookup j x y c1 = ec_lookup j x y c).
      { intros j x y. pose proof (lookup_retrieve debug (Z.of_nat k) a b j x y c) as L. rewrite ER in L. exact L. }
      assert (EN : entry = ec_lookup (Z.of_nat k) a b c) by (unfold ec_retrieve in ER; injection ER as _ <-; reflexivity).
      assert (HG1 : sound c1) by (intros j x y v H; rewrite L1 in H; exact (HG j x y v H)).
      assert (HR' : forall a b, In (a, b) es -> runs k a b) by (intros; apply HR; right; assumption).
      assert (STEP : forall v m, agrees v (inturns (lval k a b)) ->
        Rabs (Q2R (re m) - Q2R (re (cadd phi v)) - fst (lsum k es)) <= INR (List.length es) * eps /\
        Rabs (Q2R (im m) - Q2R (im (cadd phi v)) - snd (lsum k es)) <= INR (List.length es) * eps ->
        Rabs (Q2R (re m) - Q2R (re phi) - fst (lsum k ((a, b) :: es))) <= INR (List.length ((a, b) :: es)) * eps /\
        Rabs (Q2R (im m) - Q2R (im phi) - snd (lsum k ((a, b) :: es))) <= INR (List.length ((a, b) :: es)) * eps).
      { intros v m [V1 V2] [E3 E4]. cbn [lsum List.length]. rewrite S_INR. unfold plus_cR. cbn [fst snd].
        change (re (cadd phi v)) with (re phi + re v)%Q in E3. change (im (cadd phi v)) with (im phi + im v)%Q in E4.
        rewrite Q2R_plus in E3, E4. apply Rabs_def2_le in E3, E4, V1, V2. split; apply Rabs_le; lra. }
      destruct (truthy entry) eqn:T.
      + destruct entry as [v|]; [|discriminate].
        destruct (IH (cadd phi v) c1 HR' HG1) as (c' & m & E1 & E2 & E3). exists c', m. split; [exact E1|]. split; [exact E2|].
        apply (STEP v); [exact (HG k a b v (eq_sym EN))|exact E3].
      + unfold quad_turn_line at 1. rewrite Nat2Z.id. rewrite (HR a b ltac:(left; reflexivity)).
        set (v := (turns (fst (lval k a b)), turns (snd (lval k a b)))).
        assert (HV : agrees v (inturns (lval k a b))) by (split; apply turns_ok).
        destruct (IH (cadd phi v) (ec_store (Z.of_nat k) b a (copp v) (ec_store (Z.of_nat k) a b v c1)) HR'
          (sound_store k b a _ _ (sound_store k a b v c1 HG1 HV) (agrees_opp k v a b HV))) as (c' & m & E1 & E2 & E3).
        change (moment_loop line debug (Z.of_nat k) es (cadd phi v) (ec_store (Z.of_nat k) b a (copp v) (ec_store (Z.of_nat k) a b v c1), tt) = (c', tt, [], Ok m)) in E1.
        rewrite E1. exists c', m. split; [reflexivity|]. split; [exact E2|]. exact (STEP v m HV E3).
  Qed.

  Lemma moment_sound q k e c : (x1 q < x2 q /\ y1 q < y2 q)%Q -> integrable F DF zeros k e q -> e < 1 / 2000 -> sound c ->
    exists c' m, cached_moment line debug (Z.of_nat k) q (c, tt) = ((c', tt), [], Ok m) /\ sound c' /\
      Rabs (Q2R (re m) - fst (power_sum zeros k q)) <= 4 * eps + e /\
      Rabs (Q2R (im m) - snd (power_sum zeros k q)) <= 4 * eps + e.
  Proof.
    intros W HI He HG. destruct (sides_run q k e W HI He) as [ER [EB1 EB2]].
    destruct (loop_sound k (edges q) c0 c ER HG) as (c' & m & E1 & E2 & E3 & E4).
    exists c', m. split; [exact E1|]. split; [exact E2|].
    cbn [edges lsum List.length INR] in E3, E4. change (re c0) with 0%Q in E3. change (im c0) with 0%Q in E4.
    rewrite RMicromega.Q2R_0 in E3, E4. unfold plus_cR in *. cbn [fst snd] in *.
    apply Rabs_def2_le in E3, E4, EB1, EB2. split; apply Rabs_le; lra.
  Qed.
End Value.

Lemma reset_sound F DF eps c : sound F DF eps (if ec_dirty c then ec_reset c else c).
Proof.
  intros k a b v H. exfalso. destruct (ec_dirty c) eqn:D; [rewrite lookup_reset in H; discriminate|].
  destruct c as [m h i]. unfold ec_dirty in D. cbn in D. destruct m; [discriminate|discriminate].
Qed.

(** ** One run of the algorithm *)
Section Run.
  Variables (F DF : cR -> cR) (zeros : list point) (turns : R -> Q) (eps e : R) (prec : Z * Z) (fuel : nat) (debug : bool)
    (secant : cplx -> cplx -> res cplx) (newton : cplx -> res cplx)
    (polyroots : list cplx -> res (list cplx)) (has_df progress : bool).
  Notation E := (quad_env turns romberg (called F) (Some (called DF)) prec fuel debug secant newton polyroots has_df progress).
  Hypothesis turns_ok : converts turns eps.
  Hypothesis eps_small : eps <= 1 / 25.
  Hypothesis fuel_big : (2 <= fuel)%nat.
  Notation d := (8 * eps + 2 * e).
  Notation E' := (patched d zeros (new_cache, tt) E).

  Lemma new_sound : sound F DF eps new_cache.
  Proof. intros k a b v H. discriminate. Qed.
  Lemma zero_order P r q c : (x1 r < x2 r /\ y1 r < y2 r)%Q -> quad_moments_resolved e F DF zeros P r -> cell_of P r q -> sound F DF eps c ->
    exists c' m, e_est E 0 q (c, tt) = ((c', tt), [], Ok m) /\
      (Qabs (re m - inject_Z (Z.of_nat (count zeros q))) <= 1 # 5)%Q /\ sound F DF eps c'.
  Proof.
    intros W [He HR] Hq Hc.
    destruct (moment_sound F DF zeros turns eps prec fuel debug turns_ok fuel_big q 0 e c (cell_wide _ _ _ W Hq)
      (HR q 0%nat Hq (or_introl eq_refl)) He Hc) as (c' & m & E1 & E2 & E3 & _).
    exists c', m. split; [exact E1|]. split; [|exact E2]. rewrite C73_count_lemma in E3. cbn [fst] in E3.
    apply Qle_bool_iff. apply (close_accurate zeros q m _ E3). lra.
  Qed.
  Lemma higher_order P r q k c : (x1 r < x2 r /\ y1 r < y2 r)%Q -> quad_moments_resolved e F DF zeros P r -> cell_of P r q -> (k <= count zeros q <= 3)%nat -> sound F DF eps c ->
    exists c' m, e_est E (Z.of_nat k) q (c, tt) = ((c', tt), [], Ok m) /\
      apart (real_point m) (power_sum zeros k q) <= d /\ sound F DF eps c'.
  Proof.
    intros W [He HR] Hq Hk Hc.
    destruct (moment_sound F DF zeros turns eps prec fuel debug turns_ok fuel_big q k e c (cell_wide _ _ _ W Hq)
      (HR q k Hq (or_intror Hk)) He Hc) as (c' & m & E1 & E2 & E3 & E4).
    exists c', m. split; [exact E1|]. split; [|exact E2].
    rewrite apart_md. eapply Rle_trans; [apply md_sum|]. unfold minus_cR, real_point. cbn [fst snd]. lra.
  Qed.

  Lemma moments_reliable P r : (x1 r < x2 r /\ y1 r < y2 r)%Q -> quad_moments_resolved e F DF zeros P r ->
    reliable E' zeros P r /\ moments_within d E' zeros P r.
  Proof.
    intros W HR. split.
    - apply (patched_reliable d zeros P r E (new_cache, tt) (fun s => sound F DF eps (fst s)) new_sound).
      + intros q [c []] Hq Hc. destruct (zero_order P r q c W HR Hq Hc) as (c' & m & A). exists (c', tt), m. exact A.
      + intros q Hq. destruct (proj2 HR q 0%nat Hq (or_introl eq_refl)) as (p & Q & M & D & (LD & _) & _). intros z Hz Hin.
        destruct (Classical_Prop.classic (zstrict q z)) as [H|H]; [exact H|]. exfalso. exact (LD z Hz (conj Hin H)).
    - apply (patched_moments d zeros P r E (new_cache, tt) (fun s => sound F DF eps (fst s)) new_sound).
      intros q k [c []] Hq Hc Hn Hk. destruct (higher_order P r q k c W HR Hq ltac:(lia) Hc) as (c' & m & A). exists (c', tt), m. exact A.
  Qed.

  Lemma poly_run_agree x s0 depth info : (x1 (rect_of x) < x2 (rect_of x) /\ y1 (rect_of x) < y2 (rect_of x))%Q ->
    quad_moments_resolved e F DF zeros (cx_precision x) (rect_of x) ->
    argument_algorithm E PolyV depth info s0 x = argument_algorithm E' PolyV depth info s0 x.
  Proof.
    intros W HR. unfold argument_algorithm.
    assert (X : calcRoots (env_for E x) PolyV depth (rect_of x) s0 = calcRoots (env_for E' x) PolyV depth (rect_of x) s0); [|rewrite X; reflexivity].
    rewrite (calcRoots_agree d zeros (cx_precision x) (rect_of x) (env_for E x) (new_cache, tt) (fun s => sound F DF eps (fst s)) eq_refl).
    - reflexivity.
    - intros q [c []] Hq Hc. destruct (zero_order _ _ q c W HR Hq Hc) as (c' & m & A). exists (c', tt), m. exact A.
    - intros q k [c []] Hq Hc Hn Hk. destruct (higher_order _ _ q k c W HR Hq ltac:(lia) Hc) as (c' & m & A). exists (c', tt), m. exact A.
    - intros a b [c []] Hc. apply sound_remove, Hc.
    - destruct s0 as [c []]. cbn [e_dirty e_reset env_for quad_env cached_env fst snd].
      pose proof (reset_sound F DF eps c) as SC. destruct (ec_dirty c); exact SC.
  Qed.
End Run.

(** ** Searches *)
Section Searches.
  Variables (F DF : cR -> cR) (zeros : list point) (turns : R -> Q) (eps e0 B e rho : R) (eprec : Z * Z) (fuel : nat) (debug : bool)
    (secant : cplx -> cplx -> res cplx) (newton : cplx -> res cplx)
    (polyroots : list cplx -> res (list cplx)) (has_df progress : bool).
  Notation E := (quad_env turns romberg (called F) (Some (called DF)) eprec fuel debug secant newton polyroots has_df progress).
  Notation d := (8 * eps + 2 * e0).
  Notation E' := (patched d zeros (new_cache, tt) E).
  Hypothesis turns_ok : converts turns eps.
  Hypothesis eps_small : eps <= 1 / 25.
  Hypothesis fuel_big : (2 <= fuel)%nat.
  Variables (depth : nat) (f df : holoFunc) (dflt : Z * Z) (reRan imRan : Q * Q)
    (prec p : option (Z * Z)) (sp : Z * Z) (iter : list root -> list root).
  Notation P := (search_precision dflt prec).
  Notation P' := (match prec with Some q => q | None => dflt end).
  Notation x := (serial_context f (Some df) dflt reRan imRan prec).
  Notation r := (rect_of x).
  Hypothesis HI : iteration_order iter.

  Lemma quad_poly info s0 : quad_moments_resolved e0 F DF zeros P r -> solvable B d e rho polyroots zeros P r ->
    calculateRoots f (Some df) dflt (argument_algorithm E PolyV depth info s0) reRan imRan prec (rc_init p sp) =
    calculateRoots f (Some df) dflt (argument_algorithm E' PolyV depth info s0) reRan imRan prec (rc_init p sp) /\
    reliable E' zeros P r /\ resolvable B d e rho E' zeros P r.
  Proof.
    intros HR HS. pose proof (rect_wide f (Some df) dflt reRan imRan prec : (x1 r < x2 r /\ y1 r < y2 r)%Q) as W.
    destruct (moments_reliable F DF zeros turns eps e0 eprec fuel debug secant newton polyroots has_df progress turns_ok eps_small fuel_big P r W HR) as [A C].
    split; [|split; [exact A|split; [exact C|exact HS]]].
    unfold calculateRoots.
    rewrite (poly_run_agree F DF zeros turns eps e0 eprec fuel debug secant newton polyroots has_df progress turns_ok eps_small fuel_big
      x s0 depth info W HR). reflexivity.
  Qed.

  Lemma C76_quad_serial_lemma info s0 :
    let out := calculateRoots f (Some df) dflt (argument_algorithm E PolyV depth info s0) reRan imRan prec (rc_init p sp) in
    quad_moments_resolved e0 F DF zeros P r -> solvable B d e rho polyroots zeros P r ->
    snd out = Err RecursionError \/ serial_result zeros dflt reRan imRan prec iter out.
  Proof.
    intros out HR HS. destruct (quad_poly info s0 HR HS) as (Eo & A & C). unfold out. rewrite Eo.
    exact (C76_serial_lemma E' B d e rho zeros depth f df dflt reRan imRan prec p sp iter HI info s0 A C).
  Qed.
  Lemma C76_quad_complete_lemma info s0 a b :
    let out := calculateRoots f (Some df) dflt (argument_algorithm E PolyV depth info s0) reRan imRan prec (rc_init p sp) in
    quad_moments_resolved e0 F DF zeros P r -> solvable B d e rho polyroots zeros P r ->
    halvings (Qabs (fst reRan - snd reRan) + 3 * pow10 (- fst P)) (fst P) a ->
    halvings (Qabs (fst imRan - snd imRan) + 7 * pow10 (- snd P)) (snd P) b ->
    (a + b < depth)%nat -> serial_result zeros dflt reRan imRan prec iter out.
  Proof.
    intros out HR HS Ha Hb Hd. destruct (quad_poly info s0 HR HS) as (Eo & A & C). unfold out. rewrite Eo.
    exact (C76_complete_lemma E' B d e rho zeros depth f df dflt reRan imRan prec p sp iter HI info s0 a b A C Ha Hb Hd).
  Qed.

  Variables (m : nat) (st : rctx -> ecache * unit).
  Notation jobs := (createRootJobs m x).
  Hypothesis m_pos : (1 <= m)%nat.
  Hypothesis HR : forall job, In job jobs -> quad_moments_resolved e0 F DF zeros P (rect_of job) /\ solvable B d e rho polyroots zeros P (rect_of job).
  Notation outs := (map (fun job => worker_output E PolyV depth (st job) job) jobs).
  Notation outs' := (map (fun job => worker_output E' PolyV depth (st job) job) jobs).

  Lemma quad_poly_outs : outs = outs'.
  Proof.
    apply map_ext_in. intros job H.
    destruct (job_wide m x job m_pos (rect_wide f (Some df) dflt reRan imRan prec) H) as [W EP].
    change (cx_precision x) with P in EP. unfold worker_output. cbv zeta.
    rewrite (poly_run_agree F DF zeros turns eps e0 eprec fuel debug secant newton polyroots has_df progress turns_ok eps_small fuel_big
      job (st job) depth (fun _ => false) W). { reflexivity. }
    rewrite EP. exact (proj1 (HR job H)).
  Qed.
  Lemma quad_poly_jobs job : In job jobs -> reliable E' zeros P (rect_of job) /\ resolvable B d e rho E' zeros P (rect_of job).
  Proof.
    intro H. destruct (job_wide m x job m_pos (rect_wide f (Some df) dflt reRan imRan prec) H) as [W EP].
    destruct (moments_reliable F DF zeros turns eps e0 eprec fuel debug secant newton polyroots has_df progress turns_ok eps_small fuel_big P (rect_of job) W (proj1 (HR job H))) as [A C].
    split; [exact A|]. split; [exact C|exact (proj2 (HR job H))].
  Qed.

  Lemma C76_quad_parallel_lemma ev info : pool_behaviour outs ev ->
    let out := parallel_calculateRoots f dflt reRan imRan prec info ev (rc_init p sp) in
    (forall x', ev = PoolRaised x' -> snd out = Err RecursionError) /\
    (forall q, ev = PoolDone q ->
       snd out = Ok tt /\
       let pairs := reported_pairs iter (fst out) in
       all_found (13 / 20) P' zeros reRan imRan pairs /\
       all_genuine (13 / 20) P' P zeros reRan imRan pairs /\
       (separated 2 P zeros ->
          all_found (11 / 20) P' zeros reRan imRan pairs /\
          all_genuine (11 / 20) P' P zeros reRan imRan pairs /\
          orders_right (11 / 20) P' P zeros reRan imRan pairs) /\
       (separated (11 / 10) P' zeros -> exactly_once (11 / 20) P' zeros reRan imRan pairs)).
  Proof.
    intro HB. rewrite quad_poly_outs in HB.
    exact (C76_parallel_lemma E' B d e rho zeros depth f df dflt reRan imRan prec p sp iter HI m st m_pos quad_poly_jobs ev info HB).
  Qed.

  Lemma C76_quad_parallel_complete_lemma a b ev info :
    halvings (Qabs (fst reRan - snd reRan) + 3 * pow10 (- fst P)) (fst P) a ->
    halvings (Qabs (fst imRan - snd imRan) + 7 * pow10 (- snd P)) (snd P) b ->
    (a + b < depth)%nat -> pool_behaviour outs ev ->
    (forall x', ev <> PoolRaised x') /\
    let out := parallel_calculateRoots f dflt reRan imRan prec info ev (rc_init p sp) in
    snd out = Ok tt /\
    let pairs := reported_pairs iter (fst out) in
    all_genuine (13 / 20) P' P zeros reRan imRan pairs /\
    (separated 2 P zeros ->
       all_genuine (11 / 20) P' P zeros reRan imRan pairs /\ orders_right (11 / 20) P' P zeros reRan imRan pairs) /\
    (forall q, ev = PoolDone q ->
       all_found (13 / 20) P' zeros reRan imRan pairs /\
       (separated 2 P zeros -> all_found (11 / 20) P' zeros reRan imRan pairs) /\
       (separated (11 / 10) P' zeros -> exactly_once (11 / 20) P' zeros reRan imRan pairs)).
  Proof.
    intros Ha Hb Hd HB. rewrite quad_poly_outs in HB.
    exact (C76_parallel_complete_lemma E' B d e rho zeros depth f df dflt reRan imRan prec p sp iter HI m st m_pos quad_poly_jobs a b ev info Ha Hb Hd HB).
  Qed.
End Searches.

(** ** Polynomials *)
Lemma cell_within P r q : (x1 r < x2 r /\ y1 r < y2 r)%Q -> cell_of P r q -> (x1 r <= x1 q /\ x2 q <= x2 r /\ y1 r <= y1 q /\ y2 q <= y2 r)%Q.
Proof.
  intros W H. induction H as [|q H IH _ _|q H IH _ _|q H IH _ _|q H IH _ _]; [repeat split; apply Qle_refl| | | |];
    pose proof (cell_wide _ _ _ W H) as [W1 W2]; destruct IH as (I1 & I2 & I3 & I4); cbn [x1 x2 y1 y2]; repeat split; try assumption;
    ((apply Qle_shift_div_l; [reflexivity|]) || (apply Qle_shift_div_r; [reflexivity|])); Lqa.lra.
Qed.

Lemma C76_polynomial_lemma lead zeros P r k A L :
  lead <> (0, 0) -> (x1 r < x2 r)%Q -> (y1 r < y2 r)%Q -> 0 < k -> well_inside k zeros P r ->
  1 <= A -> (forall w, In w zeros \/ zin r w -> Rabs (fst w) + Rabs (snd w) <= A) ->
  Q2R (x2 r) - Q2R (x1 r) <= L -> Q2R (y2 r) - Q2R (y1 r) <= L ->
  let e := INR (List.length zeros) * A ^ 3 * (1 / k ^ 3 + 9 * L ^ 3) / 4 ^ 10 in
  e < 1 / 2000 ->
  quad_moments_resolved e (fun p => times lead (product_of zeros p)) (fun p => times lead (derivative_of zeros p)) zeros P r.
Proof.
  intros HL Hx Hy Hk HW HA HB L1 L2 e He. split; [exact He|]. intros q j Hq Hj.
  assert (J : (j <= 3)%nat) by lia. clear Hj.
  destruct (HW q Hq) as (D & Dx & Dy & Hd).
  destruct (cell_wide P r q (conj Hx Hy) Hq) as [Wx Wy].
  destruct (cell_within P r q (conj Hx Hy) Hq) as (I1 & I2 & I3 & I4).
  apply Qle_Rle in I1, I2, I3, I4. pose proof (Qlt_Rlt _ _ Wx) as Wx'. pose proof (Qlt_Rlt _ _ Wy) as Wy'.
  set (M := Rmax (Q2R (x2 q) - Q2R (x1 q)) (Q2R (y2 q) - Q2R (y1 q))).
  pose proof (Rmax_l (Q2R (x2 q) - Q2R (x1 q)) (Q2R (y2 q) - Q2R (y1 q))) as M1.
  pose proof (Rmax_r (Q2R (x2 q) - Q2R (x1 q)) (Q2R (y2 q) - Q2R (y1 q))) as M2. fold M in M1, M2.
  assert (M3 : M <= D) by (apply Rmax_lub; assumption).
  assert (M4 : M <= L) by (apply Rmax_lub; lra).
  assert (M0 : 0 < M) by lra. clearbody M.
  assert (I : integrable (fun p => times lead (product_of zeros p)) (fun p => times lead (derivative_of zeros p)) zeros j
    (INR (List.length zeros) * A ^ j * (3 / (k * M) ^ 3 + INR j ^ 3) * M ^ 3 / (3 * 4 ^ 10)) q).
  { apply polynomial_integrable; try assumption.
    - apply Rmult_lt_0_compat; assumption.
    - intros w Hw p Hp. eapply Rle_trans; [|exact (Hd w Hw p Hp)]. apply Rmult_le_compat_l; lra.
    - intros w Hw. apply HB. left. exact Hw.
    - intros p [[Hp1 Hp2] _]. apply HB. right. split; lra. }
  destruct I as (p & Q & C & D' & LD & PO & CU & DX & DY & HM).
  exists p, Q, C, D'. repeat (split; [assumption|]). eapply Rle_trans; [exact HM|].
  unfold e. replace (INR (List.length zeros) * A ^ j * (3 / (k * M) ^ 3 + INR j ^ 3) * M ^ 3 / (3 * 4 ^ 10))
    with (INR (List.length zeros) * A ^ j * (1 / k ^ 3 + INR j ^ 3 * M ^ 3 / 3) / 4 ^ 10) by (field; split; lra).
  assert (N0 : 0 <= INR (List.length zeros)) by apply pos_INR.
  assert (AJ : A ^ j <= A ^ 3) by (apply Rle_pow; [exact HA|exact J]).
  assert (AJ0 : 0 <= A ^ j) by (apply pow_le; lra).
  assert (MM : 0 <= M ^ 3 <= L ^ 3) by (split; [apply pow_le; lra|apply pow_incr; lra]).
  assert (JJ : 0 <= INR j ^ 3 <= 27).
  { split; [apply pow_le, pos_INR|]. replace 27 with (3 ^ 3) by ring. apply pow_incr. split; [apply pos_INR|].
    apply le_INR in J. cbn in J. lra. }
  assert (K0 : 0 <= 1 / k ^ 3) by (apply Rlt_le, Rdiv_lt_0_compat; [lra|apply pow_lt; lra]).
  assert (X : INR j ^ 3 * M ^ 3 / 3 <= 9 * L ^ 3).
  { assert (INR j ^ 3 * M ^ 3 <= 27 * L ^ 3) by (apply Rmult_le_compat; lra). lra. }
  assert (X0 : 0 <= INR j ^ 3 * M ^ 3) by (apply Rmult_le_pos; lra).
  apply Rmult_le_compat_r; [apply Rlt_le, Rinv_0_lt_compat, pow_lt; lra|].
  apply Rmult_le_compat; [apply Rmult_le_pos; assumption|lra|apply Rmult_le_compat_l; assumption|lra].
Qed.
