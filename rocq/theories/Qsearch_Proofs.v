(** * Searches with the quadrature estimator *)
From Coq Require Import Reals Qreals.
From Verif Require Import PyBase Rounding_Model Poly_Model Refine_Model Refine_Spec Zeros_Spec Zeros_Proofs Cache_Model Cache_Spec Cache_Proofs
  Sum_Model Sum_Spec Quad_Model Quad_Spec Quad_Proofs2 Arg_Spec Moment_Spec Moment_Proofs Moment_Proofs3 Moment_Proofs4 Moment_Proofs8
  EndToEnd_Model EndToEnd_Spec EndToEnd_Proofs Finder_Model
  Whole_Grid Whole_Inv Whole_Search Whole_Proofs Qsearch_Model Qsearch_Spec.
From Coq Require Import Lqa Lra.
Open Scope R_scope.

Lemma cell_wide P r q : (x1 r < x2 r /\ y1 r < y2 r)%Q -> cell_of P r q -> (x1 q < x2 q /\ y1 q < y2 q)%Q.
Proof.
  intros W H. induction H as [|q H IH _ _|q H IH _ _|q H IH _ _|q H IH _ _]; [exact W| | | |]; cbn [x1 x2 y1 y2];
    destruct IH as [I1 I2]; split; try assumption;
    ((apply Qlt_shift_div_l; [reflexivity|]) || (apply Qlt_shift_div_r; [reflexivity|])); Lqa.lra.
Qed.

Section Value.
  Variables (F DF : cR -> cR).
  Notation G := (moment_at F DF 0).
  (** The value of a line. *)
  Definition qval (a b : cplx) : cR := line_value a b (rule romberg (called G) a b 10).

  Lemma qval_rev a b : qval b a = neg_cR (qval a b).
  Proof.
    unfold qval. rewrite line_rev. f_equal. f_equal.
    apply rule_rev; [intros; eapply romberg_rev; eassumption|apply called_proper].
  Qed.

  Lemma rule_cong g a b a' b' k : (forall z z', ceq z z' -> g z = g z') -> ceq a a' -> ceq b b' ->
    rule romberg g a b k = rule romberg g a' b' k.
  Proof.
    intros PG [A1 A2] [B1 B2].
    assert (D : distance a b = distance a' b').
    { unfold distance. rewrite !Q2R_minus. rewrite (Qeq_eqR _ _ A1), (Qeq_eqR _ _ A2), (Qeq_eqR _ _ B1), (Qeq_eqR _ _ B2). reflexivity. }
    unfold rule. rewrite D. generalize (2 ^ k)%nat. intro N.
    assert (M : map g (uniform a b N) = map g (uniform a' b' N)).
    { unfold uniform. rewrite !map_map. apply map_ext. intro i. apply PG. unfold point_at, ceq. cbn [re im fst snd] in *.
      rewrite A1, A2, B1, B2. split; reflexivity. }
    pose proof (f_equal (map fst) M) as M1. pose proof (f_equal (map snd) M) as M2. rewrite !map_map in M1, M2.
    cbv zeta. rewrite M1, M2. reflexivity.
  Qed.

  Lemma qval_cong a b a' b' : ceq a a' -> ceq b b' -> qval a b = qval a' b'.
  Proof.
    intros A B. unfold qval. rewrite (rule_cong (called G) a b a' b' 10 (called_proper G) A B).
    destruct A as [A1 A2], B as [B1 B2]. unfold line_value, distance. rewrite !Q2R_minus.
    rewrite (Qeq_eqR _ _ A1), (Qeq_eqR _ _ A2), (Qeq_eqR _ _ B1), (Qeq_eqR _ _ B2). reflexivity.
  Qed.

  Variables (zeros : list point) (turns : R -> Q) (eps : R) (prec : Z * Z) (fuel : nat) (debug : bool).
  Hypothesis turns_ok : converts turns eps.
  Hypothesis fuel_big : (2 <= fuel)%nat.
  Notation line := (quad_turn_line turns romberg (called F) (Some (called DF)) prec fuel).
  Definition tval (a b : cplx) : R := fst (qval a b) / (2 * PI).

  Lemma edges_run q e : (x1 q < x2 q /\ y1 q < y2 q)%Q -> integrable F DF zeros 0 e q -> e < 1 / 2000 ->
    (forall a b, In (a, b) (edges q) -> quad_line romberg (called F) (Some (called DF)) prec fuel 0 a b = QuadOk [] (qval a b)) /\
    Rabs (tval (x1 q, y1 q) (x2 q, y1 q) + tval (x2 q, y1 q) (x2 q, y2 q) + tval (x2 q, y2 q) (x1 q, y2 q) + tval (x1 q, y2 q) (x1 q, y1 q)
      - INR (count zeros q)) <= 1 / 100.
  Proof.
    intros [Hx Hy] HI He. pose proof HI as (p & Q & M & D & LD & PO & CU & Dx & Dy & HM).
    assert (SR : forall h l a b, In (h, l, a, b) (side4 q) ->
      quad_line romberg (called F) (Some (called DF)) prec fuel 0 (mkpoint h l a) (mkpoint h l b) = QuadOk [] (qval (mkpoint h l a) (mkpoint h l b)) /\
      quad_line romberg (called F) (Some (called DF)) prec fuel 0 (mkpoint h l b) (mkpoint h l a) = QuadOk [] (qval (mkpoint h l b) (mkpoint h l a))).
    { intros h l a b HS. rewrite (qval_rev (mkpoint h l a)).
      exact (side_runs F DF zeros p Q M D 0 q Hx Hy LD PO CU Dx Dy (Rle_lt_trans _ _ _ HM He) prec fuel h l a b HS fuel_big). }
    assert (R0 : forall a b, In (a, b) (edges q) -> quad_line romberg (called F) (Some (called DF)) prec fuel 0 a b = QuadOk [] (qval a b)).
    { intros a b H. cbn [edges In] in H.
      destruct H as [H|[H|[H|[H|[]]]]]; injection H as <- <-.
      - exact (proj1 (SR true (y1 q) (x1 q) (x2 q) ltac:(left; reflexivity))).
      - exact (proj1 (SR false (x2 q) (y1 q) (y2 q) ltac:(right; left; reflexivity))).
      - exact (proj2 (SR true (y2 q) (x1 q) (x2 q) ltac:(right; right; left; reflexivity))).
      - exact (proj2 (SR false (x1 q) (y1 q) (y2 q) ltac:(right; right; right; left; reflexivity))). }
    split; [exact R0|]. clear SR.
    destruct (C73_moments_lemma F DF zeros 0 e q prec fuel Hx Hy HI He fuel_big) as (v1 & v2 & v3 & v4 & E1 & E2 & E3 & E4 & B & _).
    rewrite R0 in E1, E2, E3, E4 by (cbn [edges In]; tauto).
    injection E1 as <-. injection E2 as <-. injection E3 as <-. injection E4 as <-.
    rewrite C73_count_lemma in B. cbn [fst] in B. unfold tval.
    repeat match type of B with context [qval ?a ?b] => let V := fresh "V" in set (V := fst (qval a b)) in * end.
    clearbody V V0 V1 V2. pose proof PI_RGT_0 as PP. pose proof Arg_Examples.PI_3 as P3.
    replace (V / (2 * PI) + V0 / (2 * PI) + V1 / (2 * PI) + V2 / (2 * PI) - INR (count zeros q))
      with ((V + V0 + V1 + V2 - 2 * PI * INR (count zeros q)) / (2 * PI)) by (field; lra).
    unfold Rdiv. rewrite Rabs_mult, (Rabs_pos_eq (/ (2 * PI))) by (apply Rlt_le, Rinv_0_lt_compat; lra).
    apply (Rmult_le_reg_r (2 * PI)); [lra|]. rewrite Rmult_assoc, Rinv_l by lra. lra.
  Qed.

  Definition good (c : ecache) : Prop := forall a b v, ec_lookup 0 a b c = Some v -> Rabs (Q2R (re v) - tval a b) <= eps.
  Fixpoint tsum (es : list ckey) : R := match es with [] => 0 | (a, b) :: es' => tval a b + tsum es' end.

  Lemma tval_rev a b : tval b a = - tval a b.
  Proof. unfold tval. rewrite qval_rev. unfold neg_cR. cbn [fst]. unfold Rdiv. ring. Qed.

  Lemma good_store a b v c : good c -> Rabs (Q2R (re v) - tval a b) <= eps -> good (ec_store 0 a b v c).
  Proof.
    intros HG HV a' b' v' H. rewrite lookup_store in H. destruct (same_key 0 0 a' a b' b) eqn:K.
    - injection H as <-. unfold same_key in K. apply andb_true_iff in K. destruct K as [K1 K2]. apply andb_true_iff in K1.
      destruct K1 as [_ K1]. apply ceqb_eq in K1, K2. unfold tval. rewrite (qval_cong a' b' a b K1 K2). exact HV.
    - exact (HG a' b' v' H).
  Qed.
  Lemma good_remove a b c : good c -> good (ec_remove 0 a b c).
  Proof. intros HG a' b' v' H. rewrite lookup_remove in H. destruct (same_key _ _ _ _ _ _); [discriminate|exact (HG a' b' v' H)]. Qed.

  Lemma loop_good es : forall phi c,
    (forall a b, In (a, b) es -> quad_line romberg (called F) (Some (called DF)) prec fuel 0 a b = QuadOk [] (qval a b)) -> good c ->
    exists c' m, moment_loop line debug 0 es phi (c, tt) = ((c', tt), [], Ok m) /\ good c' /\
      Rabs (Q2R (re m) - Q2R (re phi) - tsum es) <= INR (List.length es) * eps.
  Proof.
    induction es as [|[a b] es IH]; intros phi c HR HG.
    - exists c, phi. split; [reflexivity|]. split; [exact HG|]. cbn [tsum List.length INR].
      replace (Q2R (re phi) - Q2R (re phi) - 0) with 0 by ring. rewrite Rabs_R0. lra.
    - cbn [moment_loop fst snd]. destruct (ec_retrieve debug 0 a b c) as [c1 entry] eqn:ER.
      assert (L1 : forall x y, ec_lookup 0 x y c1 = ec_lookup 0 x y c).
      { intros x y. pose proof (lookup_retrieve debug 0 a b 0 x y c) as L. rewrite ER in L. exact L. }
      assert (EN : entry = ec_lookup 0 a b c) by (unfold ec_retrieve in ER; injection ER as _ <-; reflexivity).
      assert (HG1 : good c1) by (intros x y v H; rewrite L1 in H; exact (HG x y v H)).
      assert (HR' : forall a b, In (a, b) es -> quad_line romberg (called F) (Some (called DF)) prec fuel 0 a b = QuadOk [] (qval a b))
        by (intros; apply HR; right; assumption).
      destruct (truthy entry) eqn:T.
      + destruct entry as [v|]; [|discriminate].
        destruct (IH (cadd phi v) c1 HR' HG1) as (c' & m & E1 & E2 & E3). exists c', m. split; [exact E1|]. split; [exact E2|].
        pose proof (HG a b v (eq_sym EN)) as HV. cbn [tsum List.length]. rewrite S_INR.
        change (re (cadd phi v)) with (re phi + re v)%Q in E3. rewrite Q2R_plus in E3.
        apply Rabs_def2_le in E3, HV. apply Rabs_le. lra.
      + unfold quad_turn_line at 1. change (Z.to_nat 0) with 0%nat. rewrite (HR a b ltac:(left; reflexivity)).
        set (v := (turns (fst (qval a b)), turns (snd (qval a b)))).
        assert (HV : Rabs (Q2R (re v) - tval a b) <= eps) by (apply turns_ok).
        assert (HV' : Rabs (Q2R (re (copp v)) - tval b a) <= eps).
        { rewrite tval_rev. change (re (copp v)) with (- re v)%Q. rewrite Q2R_opp.
          apply Rabs_def2_le in HV. apply Rabs_le. lra. }
        destruct (IH (cadd phi v) (ec_store 0 b a (copp v) (ec_store 0 a b v c1)) HR'
          (good_store b a _ _ (good_store a b v c1 HG1 HV) HV')) as (c' & m & E1 & E2 & E3).
        change (moment_loop line debug 0 es (cadd phi v) (ec_store 0 b a (copp v) (ec_store 0 a b v c1), tt) = (c', tt, [], Ok m)) in E1.
        rewrite E1. exists c', m. split; [reflexivity|]. split; [exact E2|].
        cbn [tsum List.length]. rewrite S_INR. change (re (cadd phi v)) with (re phi + re v)%Q in E3. rewrite Q2R_plus in E3.
        clearbody v. apply Rabs_def2_le in E3, HV. apply Rabs_le. lra.
  Qed.

  Lemma moment_good q e c : (x1 q < x2 q /\ y1 q < y2 q)%Q -> integrable F DF zeros 0 e q -> e < 1 / 2000 -> good c ->
    exists c' m, cached_moment line debug 0 q (c, tt) = ((c', tt), [], Ok m) /\ good c' /\
      Rabs (Q2R (re m) - INR (count zeros q)) <= 4 * eps + 1 / 100.
  Proof.
    intros W HI He HG. destruct (edges_run q e W HI He) as [ER EB].
    destruct (loop_good (edges q) c0 c ER HG) as (c' & m & E1 & E2 & E3).
    exists c', m. split; [exact E1|]. split; [exact E2|].
    cbn [edges tsum List.length INR] in E3. change (re c0) with 0%Q in E3. rewrite RMicromega.Q2R_0 in E3.
    apply Rabs_def2_le in E3, EB. apply Rabs_le. lra.
  Qed.
End Value.

(** ** One run of the algorithm *)
Section Run.
  Variables (F DF : cR -> cR) (zeros : list point) (turns : R -> Q) (eps : R) (prec : Z * Z) (fuel : nat) (debug : bool)
    (secant : cplx -> cplx -> res cplx) (newton : cplx -> res cplx)
    (polyroots : list cplx -> res (list cplx)) (has_df progress : bool).
  Notation E := (quad_env turns romberg (called F) (Some (called DF)) prec fuel debug secant newton polyroots has_df progress).
  Hypothesis turns_ok : converts turns eps.
  Hypothesis eps_small : eps <= 1 / 25.
  Hypothesis fuel_big : (2 <= fuel)%nat.

  Lemma quad_reliable P r : quad_resolved F DF zeros P r -> reliable (repaired zeros E) zeros P r.
  Proof.
    intros (e & He & HR). apply repaired_reliable. intros q Hq z Hz Hin.
    destruct (HR q Hq) as (p & Q & M & D & (LD & _) & _).
    destruct (Classical_Prop.classic (zstrict q z)) as [H|H]; [exact H|]. exfalso. exact (LD z Hz (conj Hin H)).
  Qed.

  Lemma quad_agree v x s0 depth info : v <> PolyV -> (x1 (rect_of x) < x2 (rect_of x) /\ y1 (rect_of x) < y2 (rect_of x))%Q ->
    quad_resolved F DF zeros (cx_precision x) (rect_of x) ->
    argument_algorithm E v depth info s0 x = argument_algorithm (repaired zeros E) v depth info s0 x.
  Proof.
    intros HV W (e & He & HR).
    destruct (search_agree zeros (cx_precision x) (rect_of x) (env_for E x) False v HV eq_refl
      (fun _ _ s => good F DF eps (fst s))) with (fuel := depth) (s0 := s0) as [(s' & l & _ & [])|H].
    - intros D G [c []] p HI HRd. left. cbn [e_est env_for quad_env cached_env fst] in *.
      pose proof (vpath_cell _ _ _ (r_valid _ _ _ _ _ HRd)) as HC.
      destruct (moment_good F DF zeros turns eps prec fuel debug turns_ok fuel_big _ e c
        (cell_wide _ _ _ W HC) (HR _ HC) He HI) as (c' & m & E1 & E2 & E3).
      exists (c', tt), m. split; [exact E1|]. split; [|exact E2]. apply (close_accurate zeros _ m _ E3). lra.
    - intros D G [c []] q j HI. cbn [e_rm env_for quad_env cached_env fst] in *. apply good_remove, HI.
    - destruct s0 as [c []]. cbn [e_dirty e_reset env_for quad_env cached_env fst snd].
      pose proof (start_cache c) as SC. destruct (ec_dirty c); cbn [fst]; intros a b w H; rewrite SC in H; discriminate.
    - unfold argument_algorithm. rewrite repaired_env_for, H. reflexivity.
  Qed.
End Run.
