(** The state that a job with a cut upper side leaves, and the job above it. *)
From Coq Require Import Reals Qreals Qminmax.
From Verif Require Import PyBase Rounding_Model Poly_Model Container_Model Finder_Model Finder_Spec
  Refine_Model Refine_Spec Refine_Proofs Zeros_Spec Zeros_Proofs Cache_Model Cache_Spec Cache_Proofs
  Sum_Model Sum_Spec Angle_Proofs Sum_Proofs Sum_Proofs2 Sum_Proofs3 Sum_Proofs4 Sum_Proofs5 Sum_Proofs6
  Arg_Spec Arg_Proofs Arg_Proofs2 Arg_Proofs3 Arg_Proofs4
  EndToEnd_Model EndToEnd_Spec EndToEnd_Proofs Whole_Model Whole_Grid Whole_Entry Whole_Inv Whole_Search Whole_Spec Whole_Proofs
  Whole_Proofs3 Whole_Stale Chunk_Model Chunk_Spec Chunk_Frame Chunk_Cut.
From Coq Require Import Lqa Lra.
Open Scope R_scope.

(** The state after an estimate whose first three sides are new. *)
Lemma three_lines {LS} (line : Z -> cplx -> cplx -> LS -> LS * list cplx * res cplx) debug r c st st1 st2 st3 z1 z2 z3 q1 q2 q3 :
  (x1 r < x2 r)%Q -> (y1 r < y2 r)%Q ->
  ec_lookup 0 (x1 r, y1 r) (x2 r, y1 r) c = None ->
  ec_lookup 0 (x2 r, y1 r) (x2 r, y2 r) c = None ->
  ec_lookup 0 (x2 r, y2 r) (x1 r, y2 r) c = None ->
  line 0%Z (x1 r, y1 r) (x2 r, y1 r) st = (st1, z1, Ok q1) ->
  line 0%Z (x2 r, y1 r) (x2 r, y2 r) st1 = (st2, z2, Ok q2) ->
  line 0%Z (x2 r, y2 r) (x1 r, y2 r) st2 = (st3, z3, Ok q3) ->
  let s' := snd (fst (fst (cached_moment line debug 0 r (c, st)))) in
  s' = st3 \/ s' = fst (fst (line 0%Z (x1 r, y2 r) (x1 r, y1 r) st3)).
Proof.
  intros Hx Hy K1 K2 K3 L1 L2 L3 s'.
  pose proof (sides_computed line debug 0 r c st Hx Hy) as X. cbn zeta in X.
  unfold sides in X. cbn [sum_sides] in X. rewrite K1, K2, K3, L1, L2, L3 in X.
  apply (f_equal (fun t => fst (fst t))) in X. cbn [fst] in X. fold s' in X. rewrite X. clear X s'.
  destruct (ec_lookup 0 (x1 r, y2 r) (x1 r, y1 r) c) as [v|]; [destruct (ceqb v (0, 0)%Q)|];
    try (right; destruct (line 0%Z (x1 r, y2 r) (x1 r, y1 r) st3) as [[s4 z4] [d|e]]; reflexivity).
  left. reflexivity.
Qed.

Section Cut.
  Variables (f : cplx -> cR) (zeros : list point) (L eta : R) (rho theta : cplx -> R).
  Hypothesis f_proper : forall z z', ceq z z' -> f z = f z'.
  Hypothesis L_pos : 0 <= L.
  Hypothesis eta_small : eta < PI.
  Variables (turns : R -> Q) (delta : R) (mp : Q) (n : nat) (eprec : Z * Z) (fuel : nat) (debug : bool)
    (secant : cplx -> cplx -> res cplx) (newton : cplx -> res cplx)
    (polyroots : list cplx -> res (list cplx)) (has_df progress : bool).
  Hypothesis delta_pos : 0 < delta.
  Hypothesis n_big : (3 <= n)%nat.
  Hypothesis fuel_big : (100 * n + 3 <= fuel)%nat.
  Notation E := (sum_env turns f delta mp n eprec fuel debug secant newton polyroots has_df progress).
  Notation line := (turn_line turns f delta mp n eprec fuel).
  Notation sum := (sum_line f delta mp n eprec fuel 0).
  Variable x : rctx.
  Notation R0 := (rect_of x).
  Notation P := (cx_precision x).
  Hypothesis wide0 : (x1 R0 < x2 R0 /\ y1 R0 < y2 R0)%Q.
  Hypothesis f_eq : forall z, in_rect R0 z -> 0 < rho z /\
       f z = cmulR (zero_product zeros z) (rho z * cos (theta z), rho z * sin (theta z)).
  Hypothesis theta_lip : forall z z', in_rect R0 z -> in_rect R0 z' ->
       Rabs (theta z' - theta z) <= L * (Rabs (Q2R (re z' - re z)) + Rabs (Q2R (im z' - im z))).
  Hypothesis sampled : forall q, cell_of P R0 q -> well_sampled n eta L zeros q.
  Notation xb := ((x1 R0 + x2 R0) / 2)%Q.
  Notation left := (mkRect (x1 R0) xb (y1 R0) (y2 R0)).
  Notation right := (mkRect xb (x2 R0) (y1 R0) (y2 R0)).
  Notation valid h := (valid f zeros R0 theta eta (gap R0 n h) h).

  Definition cutVH (st : sum_state R) : Prop :=
    (forall l t s v, cached (vertical st) l 0 t s = Some v ->
       match s with StartSide => t < y2 R0 | EndSide => t <= y2 R0 end)%Q /\
    (forall l t s v, cached (horizontal st) l 0 t s = Some v -> (l <= y2 R0)%Q).
  Definition cutS (st : sum_state R) : Prop :=
    exists v, cached (horizontal st) (y2 R0) 0 (x1 R0) StartSide = Some v /\ valid true (y2 R0) (x1 R0) xb v /\
      (3 <= List.length (fst v))%nat.
  Definition cut (st : sum_state R) : Prop := cutVH st /\ cutS st.

  Definition proper_cell (q : rect) : Prop := (x1 q < x2 q)%Q /\ (y1 q < y2 q)%Q /\ inside R0 q.

  Lemma line_state a b st : fst (fst (line 0 a b st)) = fst (sum a b st).
  Proof. unfold turn_line. destruct (sum a b st) as [st' [u w|u|]]; reflexivity. Qed.

  Lemma edge_lines q e : proper_cell q -> In e (edges q) ->
    (im (fst e) == im (snd e) /\ Qmin (re (fst e)) (re (snd e)) == x1 q /\ (im (fst e) == y1 q \/ im (fst e) == y2 q))%Q \/
    (~ (im (fst e) == im (snd e)) /\ Qmin (im (fst e)) (im (snd e)) == y1 q /\ Qmax (im (fst e)) (im (snd e)) == y2 q)%Q.
  Proof.
    intros (W1 & W2 & _) He.
    assert (M1 : (Qmin (y1 q) (y2 q) == y1 q)%Q) by (apply Q.min_l; Lqa.lra).
    assert (M2 : (Qmin (y2 q) (y1 q) == y1 q)%Q) by (apply Q.min_r; Lqa.lra).
    assert (M3 : (Qmax (y1 q) (y2 q) == y2 q)%Q) by (apply Q.max_r; Lqa.lra).
    assert (M4 : (Qmax (y2 q) (y1 q) == y2 q)%Q) by (apply Q.max_l; Lqa.lra).
    assert (M5 : (Qmin (x1 q) (x2 q) == x1 q)%Q) by (apply Q.min_l; Lqa.lra).
    assert (M6 : (Qmin (x2 q) (x1 q) == x1 q)%Q) by (apply Q.min_r; Lqa.lra).
    rewrite edges_keys in He. destruct He as [<-|[<-|[<-|[<-|[]]]]]; cbn [ekey fst snd re im].
    - left. rewrite M5. repeat split; try reflexivity. left. reflexivity.
    - right. split; [intro C; Lqa.lra|]. auto.
    - left. rewrite M6. repeat split; try reflexivity. right. reflexivity.
    - right. split; [intro C; Lqa.lra|]. auto.
  Qed.

  Lemma line_VH q e st : proper_cell q -> In e (edges q) -> cutVH st -> cutVH (fst (sum (fst e) (snd e) st)).
  Proof.
    intros HP He [J1 J2]. pose proof HP as (W1 & W2 & (I1 & I2 & I3 & I4)). pose proof (edge_lines q e HP He) as EL. split.
    - intros l t s v H. destruct (line_keys f delta mp n eprec fuel (fst e) (snd e) st false l t s v H) as [X|[X Y]]; [exact (J1 l t s v X)|].
      cbn [on_level coord_of] in X, Y. destruct EL as [(A & B & C)|(A & B & C)].
      + exfalso. clear - A X He W1 W2. rewrite edges_keys in He. destruct X as [X _].
        destruct He as [<-|[<-|[<-|[<-|[]]]]]; cbn [ekey fst snd re im] in *; Lqa.lra.
      + destruct s; rewrite Y; [rewrite B|rewrite C]; Lqa.lra.
    - intros l t s v H. destruct (line_keys f delta mp n eprec fuel (fst e) (snd e) st true l t s v H) as [X|[X Y]]; [exact (J2 l t s v X)|].
      cbn [on_level coord_of] in X, Y. destruct X as [X1 X2]. destruct EL as [(A & B & [C|C])|(A & B & C)]; [| |exfalso; exact (A X1)];
        rewrite <- X2, C; Lqa.lra.
  Qed.

  Lemma line_S q e st : proper_cell q -> (xb <= x1 q)%Q -> In e (edges q) -> cutS st -> cutS (fst (sum (fst e) (snd e) st)).
  Proof.
    intros HP HX He (v & H1 & H2). exists v. split; [|exact H2]. rewrite <- H1.
    apply (line_other f delta mp n eprec fuel (fst e) (snd e) st true (y2 R0) (x1 R0) StartSide).
    intros [X Y]. cbn [on_level coord_of] in X, Y. destruct X as [X1 X2].
    destruct (edge_lines q e HP He) as [(A & B & C)|(A & B & C)]; [|exact (A X1)].
    destruct (mid_between _ _ (proj1 wide0)) as [M1 M2]. rewrite B in Y. Lqa.lra.
  Qed.

  Lemma moment_cut q s : proper_cell q -> (xb <= x1 q)%Q -> cut (snd s) -> cut (snd (fst (fst (cached_moment line debug 0 q s)))).
  Proof.
    intros HP HX. apply loop_lower. intros e st He [K1 K2]. rewrite line_state.
    split; [exact (line_VH q e st HP He K1)|exact (line_S q e st HP HX He K2)].
  Qed.

  Notation E' := (repaired zeros (env_for E x)).
  Definition keeps_cut {A} (m : @M (ecache * sum_state R) A) : Prop := forall s, cut (snd s) -> cut (snd (fst (fst (m s)))).
  Lemma kc_bind {A B} (m : @M (ecache * sum_state R) A) (k : A -> @M (ecache * sum_state R) B) :
    keeps_cut m -> (forall a, keeps_cut (k a)) -> keeps_cut (mbind m k).
  Proof.
    intros H1 H2 s F. specialize (H1 s F). unfold mbind. destruct (m s) as [[s1 l1] [a|e|]]; cbn [fst snd] in *; try exact H1.
    specialize (H2 a s1 H1). destruct (k a s1) as [[s2 l2] o]. exact H2.
  Qed.
  Lemma kc_seq {A B} (m : @M (ecache * sum_state R) A) (k : @M (ecache * sum_state R) B) : keeps_cut m -> keeps_cut k -> keeps_cut (mseq m k).
  Proof. intros H1 H2. apply kc_bind; [exact H1|intros; exact H2]. Qed.
  Lemma kc_pure {A} (m : @M (ecache * sum_state R) A) : (forall s, snd (fst (fst (m s))) = snd s) -> keeps_cut m.
  Proof. intros H s F. rewrite H. exact F. Qed.

  Lemma moment_state q s : snd (fst (fst (calcMoment E' 0 q s))) = snd (fst (fst (cached_moment line debug 0 q s))).
  Proof.
    unfold calcMoment. cbn [e_est repaired env_for sum_env cached_env].
    destruct (cached_moment line debug 0 q s) as [[s' zs] v]. destruct (accurate zeros q zs v) eqn:A; [|reflexivity].
    unfold accurate in A. destruct zs; [|discriminate]. destruct v; [reflexivity|discriminate].
  Qed.
  Lemma moment_value q s : exists s' l m, calcMoment E' 0 q s = (s', l, Done m) /\
    (Qabs (re m - inject_Z (Z.of_nat (count zeros q))) <= 1 # 5)%Q.
  Proof.
    unfold calcMoment. cbn [e_est repaired env_for sum_env cached_env].
    destruct (cached_moment line debug 0 q s) as [[s' zs] v]. destruct (accurate zeros q zs v) eqn:A.
    - unfold accurate in A. destruct zs; [|discriminate]. destruct v as [m|e]; [|discriminate]. apply Qle_bool_iff in A.
      do 3 eexists. split; [reflexivity|exact A].
    - do 3 eexists. split; [reflexivity|]. cbn [re fst].
      setoid_replace (inject_Z (Z.of_nat (count zeros q)) - inject_Z (Z.of_nat (count zeros q)))%Q with 0%Q by ring. discriminate.
  Qed.
  Lemma kc_refined q : proper_cell q -> (xb <= x1 q)%Q -> keeps_cut (calculateRefinedMoment E' q).
  Proof.
    intros HP HX. unfold calculateRefinedMoment. apply kc_bind; [|intro m; apply kc_pure; reflexivity].
    intros s F. rewrite moment_state. exact (moment_cut q s HP HX F).
  Qed.

  Lemma kc_decide depth : forall q phi, proper_cell q -> (xb <= x1 q)%Q -> keeps_cut (decideRefinement E' Simple depth q phi).
  Proof.
    induction depth as [|depth IH]; intros q phi HP HX; [apply kc_pure; reflexivity|]. cbn [decideRefinement]. unfold decide_simple.
    destruct (Qltb phi TWO_PI); [apply kc_pure; reflexivity|].
    destruct (Qltb (deltaRe q) (epsRe E') && Qltb (deltaIm q) (epsIm E')); [apply kc_pure; reflexivity|].
    assert (RM : forall a b, keeps_cut (cacheRemove E' a b)) by (intros a b; apply kc_pure; reflexivity).
    destruct HP as (W1 & W2 & (I1 & I2 & I3 & I4)). cbv zeta.
    destruct (mid_between _ _ W1) as [M1 M2]. destruct (mid_between _ _ W2) as [M3 M4].
    destruct (Qltb (deltaIm q / epsIm E') (deltaRe q / epsRe E')).
    - assert (P1 : proper_cell (mkRect (x1 q) ((x1 q + x2 q) / 2) (y1 q) (y2 q)))
        by (split; [exact M1|]; split; [exact W2|]; repeat split; cbn [x1 x2 y1 y2]; Lqa.lra).
      assert (P2 : proper_cell (mkRect ((x1 q + x2 q) / 2) (x2 q) (y1 q) (y2 q)))
        by (split; [exact M2|]; split; [exact W2|]; repeat split; cbn [x1 x2 y1 y2]; Lqa.lra).
      apply kc_bind; [apply kc_refined; assumption|intro p1]. apply kc_seq; [apply IH; assumption|].
      apply kc_seq; [apply RM|]. assert (X2 : (xb <= (x1 q + x2 q) / 2)%Q) by Lqa.lra.
      apply kc_bind; [apply kc_refined; assumption|intro p2]. apply kc_seq; [apply IH; assumption|apply RM].
    - assert (P1 : proper_cell (mkRect (x1 q) (x2 q) (y1 q) ((y1 q + y2 q) / 2)))
        by (split; [exact W1|]; split; [exact M3|]; repeat split; cbn [x1 x2 y1 y2]; Lqa.lra).
      assert (P2 : proper_cell (mkRect (x1 q) (x2 q) ((y1 q + y2 q) / 2) (y2 q)))
        by (split; [exact W1|]; split; [exact M4|]; repeat split; cbn [x1 x2 y1 y2]; Lqa.lra).
      apply kc_bind; [apply kc_refined; assumption|intro p1]. apply kc_seq; [apply IH; assumption|].
      apply kc_seq; [apply RM|].
      apply kc_bind; [apply kc_refined; assumption|intro p2]. apply kc_seq; [apply IH; assumption|apply RM].
  Qed.

  (** ** The job itself *)
  Lemma gap_ok (h : bool) q (t1 t2 : Q) : proper_cell q -> (if h then t1 == x1 q /\ t2 == x2 q else t1 == y1 q /\ t2 == y2 q)%Q ->
    ((t2 - t1) / inject_Z (Z.of_nat (n - 1)) <= gap R0 n h)%Q.
  Proof.
    intros (W1 & W2 & (I1 & I2 & I3 & I4)) H. unfold gap. apply Qmult_le_r; [apply Qinv_lt_0_compat, steps_count; clear - n_big; lia|].
    destruct h; Lqa.lra.
  Qed.
  Lemma tall : ~ (y2 R0 - y1 R0 < gap R0 n false)%Q.
  Proof.
    intro C. unfold gap in C. destruct wide0 as [_ W].
    assert (N : (inject_Z 2 <= inject_Z (Z.of_nat (n - 1)))%Q) by (rewrite <- Zle_Qle; clear - n_big; lia).
    change (inject_Z 2) with 2%Q in N. set (m := inject_Z (Z.of_nat (n - 1))) in *. clearbody m.
    assert (X : ((y2 R0 - y1 R0) * m < y2 R0 - y1 R0)%Q).
    { apply (Qmult_lt_r _ _ m) in C; [|Lqa.lra]. setoid_replace ((y2 R0 - y1 R0) / m * m)%Q with (y2 R0 - y1 R0)%Q in C by (field; Lqa.lra). exact C. }
    Lqa.nra.
  Qed.

  Lemma cell_fine q h l t1 t2 : cell_of P R0 q -> proper_cell q -> In (h, l, t1, t2) (side_list q) -> fine f zeros R0 theta eta n h l t1 t2.
  Proof.
    intros HC (W1 & W2 & HI). apply (sampled_fine f zeros L R0 rho theta L_pos f_eq theta_lip eta n q); try assumption.
    - clear - n_big; lia.
    - split; assumption.
    - exact (sampled q HC).
  Qed.

  Lemma request h l t1 t2 st : fine f zeros R0 theta eta n h l t1 t2 ->
    ((t2 - t1) / inject_Z (Z.of_nat (n - 1)) <= gap R0 n h)%Q -> (h = false -> ~ (t2 - t1 < gap R0 n h)%Q) ->
    (forall v, cached (line_cache h st) l 0 t1 StartSide = Some v -> exists b, (t2 <= b)%Q /\ valid h l t1 b v) ->
    cached (line_cache h st) l 0 t2 EndSide = None ->
    exists st' p v, sum (mkpoint h l t1) (mkpoint h l t2) st = (st', SumOk [] p) /\ valid h l t1 t2 v /\
       cached (line_cache h st') l 0 t1 StartSide = Some v.
  Proof.
    intros HF HG HT H1 H2.
    destruct (request_line f zeros R0 theta f_proper eta eta_small (gap R0 n h) delta mp n eprec fuel
          delta_pos ltac:(clear - n_big; lia) fuel_big h l t1 t2 st HF HG H1) as [(st' & ph & v & Q1 & Q2 & Q3 & Q4 & Q5)|(A & B & _)].
    - intros v Hv. congruence.
    - exists st', ph, v. split; [exact Q1|]. split; [exact Q3|]. rewrite Q5. unfold hit. rewrite !Qeq_bool_refl. reflexivity.
    - exfalso. exact (HT A B).
  Qed.

  Lemma root_proper : proper_cell R0.
  Proof. split; [apply wide0|]. split; [apply wide0|]. repeat split; apply Qle_refl. Qed.
  Lemma left_proper : proper_cell left.
  Proof. destruct (mid_between _ _ (proj1 wide0)) as [M1 M2]. split; [exact M1|]. split; [apply wide0|]. repeat split; cbn [x1 x2 y1 y2]; Lqa.lra. Qed.
  Lemma right_proper : proper_cell right.
  Proof. destruct (mid_between _ _ (proj1 wide0)) as [M1 M2]. split; [exact M2|]. split; [apply wide0|]. repeat split; cbn [x1 x2 y1 y2]; Lqa.lra. Qed.

  Definition after_root (st : sum_state R) : Prop :=
    cutVH st /\
    (exists v, cached (horizontal st) (y2 R0) 0 (x1 R0) StartSide = Some v /\ valid true (y2 R0) (x1 R0) (x2 R0) v) /\
    (exists v, cached (horizontal st) (y1 R0) 0 (x1 R0) StartSide = Some v /\ valid true (y1 R0) (x1 R0) (x2 R0) v) /\
    (forall l, cached (horizontal st) l 0 xb EndSide = None) /\
    (forall t s, cached (vertical st) xb 0 t s = None).

  Lemma no_entry h a b st l t s : cached (line_cache h st) l 0 t s = None ->
    ~ (on_level a b h l /\
      match s with StartSide => t == Qmin (coord_of h a) (coord_of h b) | EndSide => t == Qmax (coord_of h a) (coord_of h b) end)%Q ->
    cached (line_cache h (fst (sum a b st))) l 0 t s = None.
  Proof. intros H N. rewrite line_other by exact N. exact H. Qed.

  Ltac off := let X := fresh "X" in let Y := fresh "Y" in intros [X Y]; cbn [on_level coord_of re im fst snd mkpoint] in X, Y;
    destruct X as [?X ?X]; clear wide0 f_eq theta_lip sampled L_pos eta_small;
    repeat match goal with
      | H : context [Qmin ?a ?b] |- _ => match H with Y => fail 1 | _ => idtac end; rewrite ?H in Y; clear H
      | H : context [Qmax ?a ?b] |- _ => match H with Y => fail 1 | _ => idtac end; rewrite ?H in Y; clear H end;
    Lqa.lra.

  Lemma root_state c s : (forall a b, ec_lookup 0 a b c = None) -> s = snd (fst (fst (cached_moment line debug 0 R0 (c, fresh_sum)))) ->
    after_root s.
  Proof.
    intros HC ->. destruct wide0 as [W1 W2]. destruct (mid_between _ _ W1) as [M1 M2].
    assert (N1 : (Qmin (x1 R0) (x2 R0) == x1 R0)%Q) by (apply Q.min_l; Lqa.lra).
    assert (N2 : (Qmin (x2 R0) (x1 R0) == x1 R0)%Q) by (apply Q.min_r; Lqa.lra).
    assert (N3 : (Qmax (x1 R0) (x2 R0) == x2 R0)%Q) by (apply Q.max_r; Lqa.lra).
    assert (N4 : (Qmax (x2 R0) (x1 R0) == x2 R0)%Q) by (apply Q.max_l; Lqa.lra).
    pose proof (fun h l t1 t2 => cell_fine R0 h l t1 t2 (cell_whole _ _) root_proper) as F.
    destruct (request true (y1 R0) (x1 R0) (x2 R0) fresh_sum) as (s1 & p1 & v1 & A1 & B1 & C1);
      [apply F; cbn; tauto|apply (gap_ok true R0); [apply root_proper|split; reflexivity]|discriminate|discriminate|reflexivity|].
    assert (S1 : s1 = fst (sum (x1 R0, y1 R0) (x2 R0, y1 R0) fresh_sum)) by (cbn [mkpoint] in A1; rewrite A1; reflexivity).
    assert (V1 : forall l t s, cached (line_cache false s1) l 0 t s = None).
    { intros l t s. rewrite S1. apply no_entry; [reflexivity|off]. }
    destruct (request false (x2 R0) (y1 R0) (y2 R0) s1) as (s2 & p2 & v2 & A2 & B2 & C2);
      [apply F; cbn; tauto|apply (gap_ok false R0); [apply root_proper|split; reflexivity]|intros _; exact tall
      |intros v Hv; rewrite V1 in Hv; discriminate|apply V1|].
    assert (S2 : s2 = fst (sum (x2 R0, y1 R0) (x2 R0, y2 R0) s1)) by (cbn [mkpoint] in A2; rewrite A2; reflexivity).
    assert (H2 : forall l t s, ~ (l == y1 R0)%Q -> cached (line_cache true s2) l 0 t s = None).
    { intros l t s HL. rewrite S2. apply no_entry; [|off]. rewrite S1. apply no_entry; [reflexivity|off]. }
    destruct (request true (y2 R0) (x1 R0) (x2 R0) s2) as (s3 & p3 & v3 & A3 & B3 & C3);
      [apply F; cbn; tauto|apply (gap_ok true R0); [apply root_proper|split; reflexivity]|discriminate
      |intros v Hv; rewrite H2 in Hv by Lqa.lra; discriminate|apply H2; Lqa.lra|].
    cbn [mkpoint] in A1, A2, A3.
    assert (S3 : s3 = fst (sum (x2 R0, y2 R0) (x1 R0, y2 R0) s2)) by (rewrite sum_line_swap, A3 by Lqa.lra; reflexivity).
    assert (L1 : line 0 (x1 R0, y1 R0) (x2 R0, y1 R0) fresh_sum = (s1, [], Ok (turns p1, 0%Q))) by (unfold turn_line; rewrite A1; reflexivity).
    assert (L2 : line 0 (x2 R0, y1 R0) (x2 R0, y2 R0) s1 = (s2, [], Ok (turns p2, 0%Q))) by (unfold turn_line; rewrite A2; reflexivity).
    assert (L3 : line 0 (x2 R0, y2 R0) (x1 R0, y2 R0) s2 = (s3, [], Ok (turns (- p3), 0%Q)))
      by (unfold turn_line; rewrite sum_line_swap, A3 by Lqa.lra; reflexivity).
    pose proof (three_lines line debug R0 c fresh_sum s1 s2 s3 [] [] [] _ _ _ W1 W2 (HC _ _) (HC _ _) (HC _ _) L1 L2 L3) as TL. cbv zeta in TL.
    set (s := snd (fst (fst (cached_moment line debug 0 R0 (c, fresh_sum))))) in *. clearbody s.
    assert (V3 : forall t s0, cached (line_cache false s3) xb 0 t s0 = None).
    { intros t s0. rewrite S3. apply no_entry; [|off]. rewrite S2. apply no_entry; [|off]. apply V1. }
    assert (H3 : forall l, cached (line_cache true s3) l 0 xb EndSide = None).
    { intro l. rewrite S3. apply no_entry; [|off]. rewrite S2. apply no_entry; [|off]. rewrite S1. apply no_entry; [reflexivity|off]. }
    assert (G3 : cached (line_cache true s3) (y1 R0) 0 (x1 R0) StartSide = Some v1).
    { rewrite S3, line_other by off. rewrite S2, line_other by off. exact C1. }
    assert (VH3 : cutVH s3).
    { rewrite S3. apply (line_VH R0 ((x2 R0, y2 R0), (x1 R0, y2 R0)) s2 root_proper); [cbn; tauto|].
      rewrite S2. apply (line_VH R0 ((x2 R0, y1 R0), (x2 R0, y2 R0)) s1 root_proper); [cbn; tauto|].
      rewrite S1. apply (line_VH R0 ((x1 R0, y1 R0), (x2 R0, y1 R0)) fresh_sum root_proper); [cbn; tauto|].
      split; intros l t s0 v H; discriminate. }
    destruct TL as [-> | ->].
    - split; [exact VH3|]. split; [exists v3; split; [exact C3|exact B3]|]. split; [exists v1; split; [exact G3|exact B1]|]. split; [exact H3|exact V3].
    - rewrite line_state. split; [apply (line_VH R0 ((x1 R0, y2 R0), (x1 R0, y1 R0)) s3 root_proper); [cbn; tauto|exact VH3]|].
      change horizontal with (line_cache true). change vertical with (line_cache false).
      split; [exists v3; rewrite line_other by off; split; [exact C3|exact B3]|].
      split; [exists v1; rewrite line_other by off; split; [exact G3|exact B1]|].
      split; [intro l; apply no_entry; [apply H3|off]|intros t s0; apply no_entry; [apply V3|off]].
  Qed.

  Lemma left_state c s s' : after_root s ->
    (forall a b, ec_lookup 0 a b c <> None -> exists e, In e (edges R0) /\ ((ceq a (fst e) /\ ceq b (snd e)) \/ (ceq a (snd e) /\ ceq b (fst e)))) ->
    cell_of P R0 left -> s' = snd (fst (fst (cached_moment line debug 0 left (c, s)))) -> cut s'.
  Proof.
    intros (VH & (vt & T1 & T2) & (vb & B1 & B2) & HN & VN) HC HL ->. destruct wide0 as [W1 W2]. destruct (mid_between _ _ W1) as [M1 M2].
    assert (N1 : (Qmin (x1 R0) xb == x1 R0)%Q) by (apply Q.min_l; Lqa.lra).
    assert (N2 : (Qmin xb (x1 R0) == x1 R0)%Q) by (apply Q.min_r; Lqa.lra).
    assert (N3 : (Qmax (x1 R0) xb == xb)%Q) by (apply Q.max_r; Lqa.lra).
    assert (N4 : (Qmax xb (x1 R0) == xb)%Q) by (apply Q.max_l; Lqa.lra).
    pose proof (fun h l t1 t2 => cell_fine left h l t1 t2 HL left_proper) as F. cbn [side_list x1 x2 y1 y2] in F.
    assert (NL : forall a b, (re a == xb \/ re b == xb)%Q -> ec_lookup 0 a b c = None).
    { intros a b Hab. destruct (ec_lookup 0 a b c) eqn:X; [|reflexivity]. exfalso.
      destruct (HC a b ltac:(congruence)) as (e & He & HE). rewrite edges_keys in He. unfold ceq in HE.
      destruct He as [<-|[<-|[<-|[<-|[]]]]]; cbn [ekey fst snd re im] in HE;
        destruct HE as [[[E1 _] [E2 _]]|[[E1 _] [E2 _]]]; destruct Hab; Lqa.lra. }
    change horizontal with (line_cache true) in *. change vertical with (line_cache false) in *.
    destruct (request true (y1 R0) (x1 R0) xb s) as (s1 & p1 & v1 & A1 & D1 & C1);
      [apply F; cbn; tauto|apply (gap_ok true left); [apply left_proper|split; reflexivity]|discriminate
      |intros v Hv; rewrite B1 in Hv; injection Hv as <-; exists (x2 R0); split; [Lqa.lra|exact B2]|apply HN|].
    assert (S1 : s1 = fst (sum (x1 R0, y1 R0) (xb, y1 R0) s)) by (cbn [mkpoint] in A1; rewrite A1; reflexivity).
    assert (V1 : forall t s0, cached (line_cache false s1) xb 0 t s0 = None).
    { intros t s0. rewrite S1. apply no_entry; [apply VN|off]. }
    destruct (request false xb (y1 R0) (y2 R0) s1) as (s2 & p2 & v2 & A2 & D2 & C2);
      [apply F; cbn; tauto|apply (gap_ok false left); [apply left_proper|split; reflexivity]|intros _; exact tall
      |intros v Hv; rewrite V1 in Hv; discriminate|apply V1|].
    assert (S2 : s2 = fst (sum (xb, y1 R0) (xb, y2 R0) s1)) by (cbn [mkpoint] in A2; rewrite A2; reflexivity).
    destruct (request true (y2 R0) (x1 R0) xb s2) as (s3 & p3 & v3 & A3 & D3 & C3).
    { apply F; cbn; tauto. }
    { apply (gap_ok true left); [apply left_proper|split; reflexivity]. }
    { discriminate. }
    { intros v Hv. rewrite S2, line_other, S1, line_other, T1 in Hv by off. injection Hv as <-. exists (x2 R0). split; [Lqa.lra|exact T2]. }
    { rewrite S2. apply no_entry; [|off]. rewrite S1. apply no_entry; [apply HN|off]. }
    assert (LE : (3 <= List.length (fst v3))%nat).
    { apply (entry_length f zeros R0 theta f_proper eta delta mp n eprec fuel delta_pos n_big fuel_big (y2 R0) (x1 R0) xb s2 s3 p3 v3);
        [apply F; cbn; tauto|exact A3|exact C3]. }
    cbn [mkpoint] in A1, A2, A3.
    assert (S3 : s3 = fst (sum (xb, y2 R0) (x1 R0, y2 R0) s2)) by (rewrite sum_line_swap, A3 by Lqa.lra; reflexivity).
    assert (L1 : line 0 (x1 R0, y1 R0) (xb, y1 R0) s = (s1, [], Ok (turns p1, 0%Q))) by (unfold turn_line; rewrite A1; reflexivity).
    assert (L2 : line 0 (xb, y1 R0) (xb, y2 R0) s1 = (s2, [], Ok (turns p2, 0%Q))) by (unfold turn_line; rewrite A2; reflexivity).
    assert (L3 : line 0 (xb, y2 R0) (x1 R0, y2 R0) s2 = (s3, [], Ok (turns (- p3), 0%Q)))
      by (unfold turn_line; rewrite sum_line_swap, A3 by Lqa.lra; reflexivity).
    assert (K1 : ec_lookup 0 (x1 R0, y1 R0) (xb, y1 R0) c = None) by (apply NL; right; reflexivity).
    assert (K2 : ec_lookup 0 (xb, y1 R0) (xb, y2 R0) c = None) by (apply NL; right; reflexivity).
    assert (K3 : ec_lookup 0 (xb, y2 R0) (x1 R0, y2 R0) c = None) by (apply NL; left; reflexivity).
    pose proof (three_lines line debug left c s s1 s2 s3 [] [] [] _ _ _ M1 W2 K1 K2 K3 L1 L2 L3) as TL. cbv zeta in TL.
    cbn [x1 x2 y1 y2] in TL.
    set (s' := snd (fst (fst (cached_moment line debug 0 left (c, s))))) in *. clearbody s'.
    assert (VH3 : cutVH s3).
    { rewrite S3. apply (line_VH left ((xb, y2 R0), (x1 R0, y2 R0)) s2 left_proper); [cbn; tauto|].
      rewrite S2. apply (line_VH left ((xb, y1 R0), (xb, y2 R0)) s1 left_proper); [cbn; tauto|].
      rewrite S1. apply (line_VH left ((x1 R0, y1 R0), (xb, y1 R0)) s left_proper); [cbn; tauto|]. exact VH. }
    destruct TL as [-> | ->].
    - split; [exact VH3|]. exists v3. auto.
    - rewrite line_state. split; [apply (line_VH left ((x1 R0, y2 R0), (x1 R0, y1 R0)) s3 left_proper); [cbn; tauto|exact VH3]|].
      exists v3. change horizontal with (line_cache true). rewrite line_other by off. auto.
  Qed.

  Hypothesis not_small : ~ sub_tolerance P R0.
  Hypothesis is_wider : wider P R0.
  Hypothesis some_zero : count zeros R0 <> O.
  Hypothesis left_empty : count zeros left = O.

  Lemma run_cut depth : (1 <= depth)%nat -> cut (snd (fst (fst (calcRoots E' Simple depth R0 new_estimator)))).
  Proof.
    intro Hd. destruct depth as [|depth]; [exfalso; clear - Hd; lia|].
    unfold calcRoots. assert (D0 : (if e_dirty E' new_estimator then e_reset E' new_estimator else new_estimator) = new_estimator) by reflexivity.
    rewrite D0. clear D0. unfold mbind at 1.
    destruct (moment_value R0 new_estimator) as (s1 & l1 & m1 & EM & HM).
    pose proof (moment_state R0 new_estimator) as ES. rewrite EM in ES. cbn [fst snd] in ES. rewrite EM.
    pose proof (root_state new_cache (snd s1) (fun _ _ => eq_refl) ES) as AR.
    assert (LK : forall a b, ec_lookup 0 a b (fst s1) <> None ->
      exists e, In e (edges R0) /\ ((ceq a (fst e) /\ ceq b (snd e)) \/ (ceq a (snd e) /\ ceq b (fst e)))).
    { intros a b H. destruct (ec_lookup 0 a b (fst s1)) as [v|] eqn:X; [|congruence].
      assert (FS : fst s1 = fst (fst (fst (cached_moment line debug 0 R0 new_estimator)))).
      { pose proof EM as EM'. unfold calcMoment in EM'. cbn [e_est repaired env_for sum_env cached_env] in EM'.
        destruct (cached_moment line debug 0 R0 new_estimator) as [[s' zs] v']. destruct (accurate zeros R0 zs v') eqn:A.
        - destruct v'; injection EM' as <- _ _; reflexivity.
        - injection EM' as <- _ _; reflexivity. }
      rewrite FS in X. unfold cached_moment, new_estimator in X. apply loop_lookup in X. destruct X as [X|X]; [exfalso; apply X; reflexivity|exact X]. }
    assert (PHI : Qltb (re m1) TWO_PI = false).
    { destruct (Qltb (re m1) TWO_PI) eqn:Q; [|reflexivity]. exfalso. apply Qltb_true in Q. apply Qabs_Qle_condition in HM.
      assert (K : (inject_Z 1 <= inject_Z (Z.of_nat (count zeros R0)))%Q) by (rewrite <- Zle_Qle; clear - some_zero; lia).
      change (inject_Z 1) with 1%Q in K. unfold TWO_PI in Q. Lqa.lra. }
    cbn [decideRefinement]. unfold decide_simple. rewrite PHI.
    assert (ST : Qltb (deltaRe R0) (epsRe E') && Qltb (deltaIm R0) (epsIm E') = false).
    { destruct (Qltb (deltaRe R0) (epsRe E') && Qltb (deltaIm R0) (epsIm E')) eqn:X; [|reflexivity]. exfalso.
      apply andb_true_iff in X as [X1 X2]. apply Qltb_true in X1, X2. exact (not_small (conj X1 X2)). }
    rewrite ST.
    assert (WI : Qltb (deltaIm R0 / epsIm E') (deltaRe R0 / epsRe E') = true) by (apply Qltb_true; exact is_wider).
    rewrite WI. cbv zeta. unfold mbind at 1. unfold calculateRefinedMoment at 1. unfold mbind at 1.
    destruct (moment_value left s1) as (s2 & l2 & m2 & EM2 & HM2).
    pose proof (moment_state left s1) as ES2. rewrite EM2 in ES2. cbn [fst snd] in ES2. rewrite EM2.
    assert (CL : cell_of P R0 left) by (apply cell_left; [constructor|exact not_small|exact is_wider]).
    assert (CT : cut (snd s2)) by (apply (left_state (fst s1) (snd s1) _ AR LK CL); rewrite <- surjective_pairing; exact ES2).
    assert (PHI2 : Qltb (re m2) TWO_PI = true).
    { apply Qltb_true. rewrite left_empty in HM2. apply Qabs_Qle_condition in HM2. change (inject_Z (Z.of_nat 0)) with 0%Q in HM2. unfold TWO_PI. Lqa.lra. }
    cbn [ret fst snd app].
    match goal with |- context [mseq (decideRefinement E' Simple depth left ?p) ?k] => set (rest := mseq (decideRefinement E' Simple depth left p) k) end.
    assert (KR : keeps_cut rest).
    { unfold rest. apply kc_seq.
      - destruct depth as [|d]; [apply kc_pure; reflexivity|]. cbn [decideRefinement]. unfold decide_simple. rewrite PHI2. apply kc_pure. reflexivity.
      - apply kc_seq; [apply kc_pure; reflexivity|]. apply kc_bind; [apply kc_refined; [exact right_proper|apply Qle_refl]|intro p2].
        apply kc_seq; [apply kc_decide; [exact right_proper|apply Qle_refl]|apply kc_pure; reflexivity]. }
    specialize (KR s2 CT). destruct (rest s2) as [[s3 l3] o3]. exact KR.
  Qed.
End Cut.
