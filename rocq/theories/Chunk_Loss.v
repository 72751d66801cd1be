(** * A zero that the parallel finder loses *)
From Coq Require Import Reals Qreals Qminmax.
From Verif Require Import PyBase Rounding_Model Rounding_Proofs Poly_Model Container_Model Container_Spec Finder_Model Finder_Spec Finder_Proofs
  Refine_Model Refine_Spec Refine_Proofs Zeros_Spec Zeros_Proofs Cache_Model Cache_Spec Cache_Proofs
  Sum_Model Sum_Spec Angle_Proofs Sum_Proofs Sum_Proofs2 Sum_Proofs3 Sum_Proofs4 Sum_Proofs5 Sum_Proofs6
  Arg_Spec Arg_Proofs Arg_Proofs2 Arg_Proofs3 Arg_Proofs4 Arg_Examples
  EndToEnd_Model EndToEnd_Spec EndToEnd_Proofs EndToEnd_Proofs2 EndToEnd_Examples Whole_Model Whole_Spec Whole_Grid Whole_Entry Whole_Inv Whole_Search Whole_Proofs Whole_Proofs2
  Whole_Proofs3 Whole_Examples Whole_Stale Whole_Examples2
  Chunk_Model Chunk_Spec Chunk_Proofs Chunk_Frame Chunk_Proofs2 Chunk_Cut Chunk_Cut2 Chunk_Cut3.
From Coq Require Import Lqa Lra.
Open Scope R_scope.

(** ** Estimators repaired for different lists of zeros *)
Section Swap.
  Context {T : Type} (E : env T) (zs zs' : list point) (r : rect).
  Hypothesis same : forall q, inside r q -> count zs q = count zs' q.

  Lemma accurate_swap q l v : inside r q -> accurate zs q l v = accurate zs' q l v.
  Proof. intro H. unfold accurate. rewrite (same q H). reflexivity. Qed.
  Lemma moment_swap q s : inside r q -> calcMoment (repaired zs E) 0 q s = calcMoment (repaired zs' E) 0 q s.
  Proof.
    intro H. unfold calcMoment. cbn [e_est repaired]. destruct (e_est E 0 q s) as [[s' l] v].
    rewrite (accurate_swap q l v H), (same q H). reflexivity.
  Qed.
  Lemma bind_ext {A B} (m m' : @M T A) (k k' : A -> @M T B) s : (forall s, m s = m' s) -> (forall a s, k a s = k' a s) -> mbind m k s = mbind m' k' s.
  Proof. intros H1 H2. unfold mbind. rewrite H1. destruct (m' s) as [[s1 l1] [a|e|]]; [rewrite H2|..]; reflexivity. Qed.
  Lemma refined_swap q s : inside r q -> calculateRefinedMoment (repaired zs E) q s = calculateRefinedMoment (repaired zs' E) q s.
  Proof. intro H. unfold calculateRefinedMoment. apply bind_ext; [intro; apply moment_swap; exact H|reflexivity]. Qed.

  Lemma decide_swap depth : forall q phi s, inside r q -> (x1 q <= x2 q)%Q -> (y1 q <= y2 q)%Q ->
    decideRefinement (repaired zs E) Simple depth q phi s = decideRefinement (repaired zs' E) Simple depth q phi s.
  Proof.
    induction depth as [|depth IH]; intros q phi s (I1 & I2 & I3 & I4) W1 W2; [reflexivity|]. cbn [decideRefinement]. unfold decide_simple.
    destruct (Qltb phi TWO_PI); [reflexivity|].
    change (epsRe (repaired zs E)) with (epsRe (repaired zs' E)). change (epsIm (repaired zs E)) with (epsIm (repaired zs' E)).
    destruct (Qltb (deltaRe q) (epsRe (repaired zs' E)) && Qltb (deltaIm q) (epsIm (repaired zs' E))); [reflexivity|]. cbv zeta.
    assert (X1 : (x1 q <= (x1 q + x2 q) / 2 /\ (x1 q + x2 q) / 2 <= x2 q)%Q).
    { split; apply Qmult_le_r with (z := 2%Q); try reflexivity; setoid_replace ((x1 q + x2 q) / 2 * 2)%Q with (x1 q + x2 q)%Q by field; Lqa.lra. }
    assert (Y1 : (y1 q <= (y1 q + y2 q) / 2 /\ (y1 q + y2 q) / 2 <= y2 q)%Q).
    { split; apply Qmult_le_r with (z := 2%Q); try reflexivity; setoid_replace ((y1 q + y2 q) / 2 * 2)%Q with (y1 q + y2 q)%Q by field; Lqa.lra. }
    destruct (Qltb (deltaIm q / epsIm (repaired zs' E)) (deltaRe q / epsRe (repaired zs' E)));
      (apply bind_ext; [intro s1; apply refined_swap; repeat split; cbn [x1 x2 y1 y2]; Lqa.lra|intros p1 s1];
       apply bind_ext; [intro s2; apply IH; repeat split; cbn [x1 x2 y1 y2]; Lqa.lra|intros _ s2];
       apply bind_ext; [reflexivity|intros _ s3];
       apply bind_ext; [intro s4; apply refined_swap; repeat split; cbn [x1 x2 y1 y2]; Lqa.lra|intros p2 s4];
       apply bind_ext; [intro s5; apply IH; repeat split; cbn [x1 x2 y1 y2]; Lqa.lra|reflexivity]).
  Qed.
  Lemma search_swap depth s : (x1 r <= x2 r)%Q -> (y1 r <= y2 r)%Q ->
    calcRoots (repaired zs E) Simple depth r s = calcRoots (repaired zs' E) Simple depth r s.
  Proof.
    intros W1 W2. unfold calcRoots. change (e_dirty (repaired zs E)) with (e_dirty (repaired zs' E)).
    change (e_reset (repaired zs E)) with (e_reset (repaired zs' E)).
    assert (I : inside r r) by (repeat split; apply Qle_refl).
    apply bind_ext; [intro; apply moment_swap; exact I|intros a s1; apply decide_swap; assumption].
  Qed.
End Swap.

Lemma output_swap {T} (E : env T) zs zs' depth s job : (x1 (rect_of job) <= x2 (rect_of job))%Q -> (y1 (rect_of job) <= y2 (rect_of job))%Q ->
  (forall q, inside (rect_of job) q -> count zs q = count zs' q) ->
  worker_output (repaired zs E) Simple depth s job = worker_output (repaired zs' E) Simple depth s job.
Proof.
  intros W1 W2 H. unfold worker_output, argument_algorithm. rewrite !repaired_env_for.
  rewrite (search_swap (env_for E job) zs zs' (rect_of job) H depth s W1 W2). reflexivity.
Qed.

(** A repaired search of a rectangle without zeros reports nothing. *)
Lemma empty_repaired {T} (E : env T) zs depth s job : count zs (rect_of job) = O ->
  worker_output (repaired zs E) Simple (Datatypes.S depth) s job = ([], None).
Proof.
  intro HC.
  assert (Y : exists s' l a, calcRoots (env_for (repaired zs E) job) Simple (Datatypes.S depth) (rect_of job) s = (s', l, Done a) /\ roots_of l = []).
  { rewrite repaired_env_for. unfold calcRoots. unfold mbind at 1.
    set (s0 := if e_dirty _ s then _ else s).
    assert (X : exists s' l m, calcMoment (repaired zs (env_for E job)) 0 (rect_of job) s0 = (s', l, Done m) /\ (re m < TWO_PI)%Q /\
      roots_of l = []).
    { unfold calcMoment. cbn [e_est repaired]. destruct (e_est (env_for E job) 0 (rect_of job) s0) as [[s' zs0] w].
      destruct (accurate zs (rect_of job) zs0 w) eqn:A.
      - unfold accurate in A. destruct zs0; [|discriminate]. destruct w as [m|e]; [|discriminate]. apply Qle_bool_iff in A.
        rewrite HC in A. change (inject_Z (Z.of_nat 0)) with 0%Q in A. apply Qabs_Qle_condition in A.
        do 3 eexists. split; [reflexivity|]. split; [unfold TWO_PI; Lqa.lra|reflexivity].
      - do 3 eexists. split; [reflexivity|]. cbn [re fst]. rewrite HC. split; [reflexivity|reflexivity]. }
    destruct X as (s' & l & m & E1 & E2 & E3). rewrite E1.
    cbn [decideRefinement]. unfold decide_simple. assert (Qltb (re m) TWO_PI = true) as -> by (apply Qltb_true; exact E2).
    unfold mseq, mbind, emit, advance. destruct (e_progress _); do 3 eexists; (split; [reflexivity|]);
      unfold roots_of in *; rewrite flat_map_app, E3; reflexivity. }
  destruct Y as (s' & l & a & E1 & E2). unfold worker_output, argument_algorithm. rewrite E1, E2. reflexivity.
Qed.

(** ** The example *)
Definition low_zero : point := (IZR 184 / 60, IZR 1 / 60).
Definition high_zero : point := (IZR 137 / 60, IZR 79 / 60).
Definition two_zeros : list point := [low_zero; high_zero].
Definition wide_x : rctx := serial_context demo_f None (0, 0)%Z (0, 61 # 10)%Q (0, 5 # 2)%Q None.

(** Cells whose sides are multiples of 1/20. *)
Definition piece_shapes : list (Z * Z) := (64, 32)%Z :: (32, 32)%Z :: shapes.
Definition all_shapes : list (Z * Z) := (128, 64)%Z :: (64, 64)%Z :: piece_shapes.
Definition halving (ss : list (Z * Z)) : Prop := forall w h, In (w, h) ss ->
  (In (w / 2, h)%Z ss /\ w = 2 * (w / 2) /\ h < w)%Z \/ (In (w, h / 2)%Z ss /\ h = 2 * (h / 2) /\ w <= h)%Z \/
  (w = 1 /\ h = 1)%Z.
Lemma piece_halving : halving piece_shapes.
Proof.
  intros w h [H|[H|H]]; [injection H as <- <-|injection H as <- <-|destruct (shape_cases w h H) as [(A & B)|[(A & B)|A]]].
  - left. split; [cbn; tauto|]. split; reflexivity.
  - right; left. split; [cbn; tauto|]. split; [reflexivity|lia].
  - left. split; [right; right; exact A|exact B].
  - right; left. split; [right; right; exact A|exact B].
  - right; right. exact A.
Qed.
Lemma all_halving : halving all_shapes.
Proof.
  intros w h [H|[H|H]]; [injection H as <- <-|injection H as <- <-|destruct (piece_halving w h H) as [(A & B)|[(A & B)|A]]].
  - left. split; [cbn; tauto|]. split; reflexivity.
  - right; left. split; [cbn; tauto|]. split; [reflexivity|lia].
  - left. split; [right; right; exact A|exact B].
  - right; left. split; [right; right; exact A|exact B].
  - right; right. exact A.
Qed.
Definition on_grid (ss : list (Z * Z)) (q : rect) : Prop := exists a c w h, In (w, h) ss /\
  (x1 q == 0 + tw a /\ x2 q == 0 + tw (a + w) /\ y1 q == 0 + tw c /\ y2 q == 0 + tw (c + h))%Q.

Lemma grid_cells ss r q : halving ss -> on_grid ss r -> cell_of (1, 1)%Z r q -> on_grid ss q.
Proof.
  assert (SUB : forall q, (x2 q - x1 q == inject_Z 1 / 20 /\ y2 q - y1 q == inject_Z 1 / 20)%Q -> sub_tolerance (1, 1)%Z q).
  { intros q0 [A B]. split; cbn [fst snd]; change (- (1))%Z with (-1)%Z; rewrite ?A, ?B, pow10_m1; reflexivity. }
  intros HH HP.
  induction 1 as [|q _ (a & c & w & h & HS & HC) NS W|q _ (a & c & w & h & HS & HC) NS W
    |q _ (a & c & w & h & HS & HC) NS W|q _ (a & c & w & h & HS & HC) NS W].
  1:{ exact HP. }
  all: pose proof (placed_dims (0, 0)%Q q a c w h HC) as HD; rewrite (placed_wider q w h HD) in W;
    destruct (HH w h HS) as [(S1 & S2 & S3)|[(S1 & S2 & S3)|[-> ->]]]; try (exfalso; lia);
    try (exfalso; apply NS, SUB; exact HD); destruct HC as (A & B & C & D).
  - exists a, c, (w / 2)%Z, h. split; [exact S1|]. cbn [x1 x2 y1 y2]. rewrite A, B, tw_mid by eauto.
    repeat split; try reflexivity; assumption.
  - exists (a + w / 2)%Z, c, (w / 2)%Z, h. split; [exact S1|]. cbn [x1 x2 y1 y2]. rewrite A, B, tw_mid by eauto.
    replace (a + w / 2 + w / 2)%Z with (a + w)%Z by lia. repeat split; try reflexivity; assumption.
  - exists a, c, w, (h / 2)%Z. split; [exact S1|]. cbn [x1 x2 y1 y2]. rewrite C, D, tw_mid by eauto.
    repeat split; try reflexivity; assumption.
  - exists a, (c + h / 2)%Z, w, (h / 2)%Z. split; [exact S1|]. cbn [x1 x2 y1 y2]. rewrite C, D, tw_mid by eauto.
    replace (c + h / 2 + h / 2)%Z with (c + h)%Z by lia. repeat split; try reflexivity; assumption.
Qed.

Lemma grid_size ss (b : Z) q : (forall w h, In (w, h) ss -> w <= b /\ h <= b)%Z -> on_grid ss q ->
  Q2R (x2 q - x1 q) <= IZR b / 20 /\ Q2R (y2 q - y1 q) <= IZR b / 20.
Proof.
  intros HB (a & c & u & h & HS & HC). destruct (placed_dims (0, 0)%Q q a c u h HC) as [A B].
  rewrite (Qeq_eqR _ _ A), (Qeq_eqR _ _ B).
  assert (Z : forall z, Q2R (inject_Z z / 20) = IZR z / 20).
  { intro z. rewrite Q2R_div by discriminate. unfold inject_Z, Q2R. cbn. lra. }
  rewrite !Z. destruct (HB u h HS) as [U V]. apply IZR_le in U, V. lra.
Qed.
Lemma all_size w h : In (w, h) all_shapes -> (w <= 128 /\ h <= 128)%Z.
Proof.
  unfold all_shapes, piece_shapes, shapes. cbn [In]. intro H.
  repeat match goal with H : _ \/ _ |- _ => destruct H as [H|H]; [injection H as <- <-; lia|] end. contradiction.
Qed.
Lemma piece_size w h : In (w, h) piece_shapes -> (w <= 64 /\ h <= 64)%Z.
Proof.
  unfold piece_shapes, shapes. cbn [In]. intro H.
  repeat match goal with H : _ \/ _ |- _ => destruct H as [H|H]; [injection H as <- <-; lia|] end. contradiction.
Qed.

Lemma two_sampled n ss (b : Z) eta q : (6001 <= Z.of_nat n)%Z -> (0 <= b)%Z -> (forall w h, In (w, h) ss -> w <= b /\ h <= b)%Z ->
  IZR b / 1000 <= eta -> on_grid ss q -> well_sampled n eta 0 two_zeros q.
Proof.
  intros Hn Hb0 HB He HP. exists (1 / 60). split; [lra|]. split.
  - destruct HP as (a & c & u & h & HS & (A & B & C & D)).
    intros w [<-|[<-|[]]]; apply (grid_distance q a (a + u) c (c + h)); try discriminate; assumption.
  - destruct (grid_size ss b q HB HP) as [A B].
    assert (N : 6000 <= INR (n - 1)). { rewrite INR_IZR_INZ. apply IZR_le. lia. }
    assert (X : forall u, u <= IZR b / 20 -> u / INR (n - 1) * (0 + INR (List.length two_zeros) / (1 / 60)) <= eta).
    { intros u Hu. replace (INR (List.length two_zeros)) with 2 by (cbn; lra).
      replace (u / INR (n - 1) * (0 + 2 / (1 / 60))) with ((120 * u) / INR (n - 1)) by (field; lra).
      apply Rmult_le_reg_r with (INR (n - 1)); [lra|]. unfold Rdiv. rewrite Rmult_assoc, Rinv_l by lra.
      assert (0 <= IZR b) by (apply IZR_le; exact Hb0).
      assert (IZR b / 1000 * 6000 <= eta * INR (n - 1)) by (apply Rmult_le_compat; lra). lra. }
    split; apply X; lra.
Qed.
