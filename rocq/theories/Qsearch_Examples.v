(** * A search with the quadrature estimator, all of whose hypotheses are met *)
From Coq Require Import Reals Qreals Qminmax.
From Verif Require Import PyBase Rounding_Model Rounding_Proofs Container_Model Container_Spec Finder_Model
  Refine_Model Refine_Spec Zeros_Spec Cache_Model Sum_Model Sum_Spec Quad_Spec Arg_Spec Arg_Examples Moment_Spec
  EndToEnd_Model EndToEnd_Spec EndToEnd_Examples Whole_Spec Whole_Examples Qsearch_Model Qsearch_Spec Qsearch_Proofs Qsearch_Proofs2.
From Coq Require Import Lqa Lra.
Open Scope R_scope.

(** A double zero at (1 + i) / 30, searched for in [0, 1/10] x [0, 1/10]. *)
Definition pair30 : list point := [(1 / 30, 1 / 30); (1 / 30, 1 / 30)].

Definition shapes2 : list (Z * Z) := [(8, 16); (8, 8); (8, 4); (4, 4); (4, 2); (2, 2); (2, 1); (1, 1)]%Z.
Definition aligned (q : rect) : Prop := exists i j w h, In (w, h) shapes2 /\
  (x1 q == 0 + tw (-2 + w * i) /\ x2 q == 0 + tw (-2 + w * i + w) /\
   y1 q == 0 + tw (-6 + h * j) /\ y2 q == 0 + tw (-6 + h * j + h))%Q.

Lemma shape2_cases w h : In (w, h) shapes2 ->
  (In (w / 2, h)%Z shapes2 /\ w = 2 * (w / 2) /\ h < w)%Z \/ (In (w, h / 2)%Z shapes2 /\ h = 2 * (h / 2) /\ w <= h)%Z \/
  (w = 1 /\ h = 1)%Z.
Proof.
  intros [H|[H|[H|[H|[H|[H|[H|[H|[]]]]]]]]]; injection H as <- <-; cbn [shapes2 In];
    repeat split; try lia; repeat (first [left; repeat split; tauto || reflexivity || lia | right]); auto.
Qed.

Lemma aligned_cells r q : aligned r -> cell_of (1, 1)%Z r q -> aligned q.
Proof.
  assert (SUB : forall q, (x2 q - x1 q == inject_Z 1 / 20 /\ y2 q - y1 q == inject_Z 1 / 20)%Q -> sub_tolerance (1, 1)%Z q).
  { intros q0 [A B]. split; cbn [fst snd]; change (- (1))%Z with (-1)%Z; rewrite ?A, ?B, pow10_m1; reflexivity. }
  intro HP.
  induction 1 as [|q _ (i & j & w & h & HS & HC) NS W|q _ (i & j & w & h & HS & HC) NS W
    |q _ (i & j & w & h & HS & HC) NS W|q _ (i & j & w & h & HS & HC) NS W].
  1:{ exact HP. }
  all: pose proof (placed_dims (0, 0)%Q q (-2 + w * i) (-6 + h * j) w h HC) as HD; rewrite (placed_wider q w h HD) in W;
    destruct (shape2_cases w h HS) as [(S1 & S2 & S3)|[(S1 & S2 & S3)|[-> ->]]]; try (exfalso; lia);
    try (exfalso; apply NS, SUB; exact HD); destruct HC as (A & B & C & D).
  - exists (2 * i)%Z, j, (w / 2)%Z, h. split; [exact S1|]. cbn [x1 x2 y1 y2]. rewrite A, B, tw_mid by eauto.
    replace (-2 + w / 2 * (2 * i))%Z with (-2 + w * i)%Z by lia. repeat split; try reflexivity; assumption.
  - exists (2 * i + 1)%Z, j, (w / 2)%Z, h. split; [exact S1|]. cbn [x1 x2 y1 y2]. rewrite A, B, tw_mid by eauto.
    replace (-2 + w / 2 * (2 * i + 1))%Z with (-2 + w * i + w / 2)%Z by lia.
    replace (-2 + w * i + w / 2 + w / 2)%Z with (-2 + w * i + w)%Z by lia. repeat split; try reflexivity; assumption.
  - exists i, (2 * j)%Z, w, (h / 2)%Z. split; [exact S1|]. cbn [x1 x2 y1 y2]. rewrite C, D, tw_mid by eauto.
    replace (-6 + h / 2 * (2 * j))%Z with (-6 + h * j)%Z by lia. repeat split; try reflexivity; assumption.
  - exists i, (2 * j + 1)%Z, w, (h / 2)%Z. split; [exact S1|]. cbn [x1 x2 y1 y2]. rewrite C, D, tw_mid by eauto.
    replace (-6 + h / 2 * (2 * j + 1))%Z with (-6 + h * j + h / 2)%Z by lia.
    replace (-6 + h * j + h / 2 + h / 2)%Z with (-6 + h * j + h)%Z by lia. repeat split; try reflexivity; assumption.
Qed.

Lemma small_aligned : aligned (rect_of small_x).
Proof. exists 0%Z, 0%Z, 8%Z, 16%Z. split; [cbn; tauto|]. vm_compute. repeat split. Qed.

(** Grid lines stay away from 1/30 by a sixth of the longer side. *)
Lemma lines_away w h : In (w, h) shapes2 -> let M := Z.max w h in
  (forall i, M <= 2 * Z.abs (3 * (-2 + w * i) - 2))%Z /\ (forall j, M <= 2 * Z.abs (3 * (-6 + h * j) - 2))%Z.
Proof.
  intros [H|[H|[H|[H|[H|[H|[H|[H|[]]]]]]]]]; injection H as <- <-; cbn -[Z.mul Z.add Z.sub Z.abs]; split; intro; lia.
Qed.

Lemma line_away k M : (M <= 2 * Z.abs (3 * k - 2))%Z -> (0 <= M)%Z ->
  IZR M / 120 * (IZR M / 120) <= (IZR k / 20 - 1 / 30) * (IZR k / 20 - 1 / 30).
Proof.
  intros H HM. replace (IZR k / 20 - 1 / 30) with (IZR (3 * k - 2) / 60) by (rewrite minus_IZR, mult_IZR; lra).
  set (a := (3 * k - 2)%Z) in *.
  assert (IZR (M * M) <= IZR (4 * (a * a))) by (apply IZR_le; nia).
  rewrite !mult_IZR in H0. apply IZR_le in HM. lra.
Qed.

Lemma pair_inside : well_inside (1 / 6) pair30 (1, 1)%Z (rect_of small_x).
Proof.
  intros q Hq. apply (aligned_cells _ _ small_aligned) in Hq. destruct Hq as (i & j & w & h & HS & A & B & C & D).
  exists (IZR (Z.max w h) / 20).
  rewrite (Qeq_eqR _ _ A), (Qeq_eqR _ _ B), (Qeq_eqR _ _ C), (Qeq_eqR _ _ D), !Q2R_tw.
  pose proof (IZR_le _ _ (Z.le_max_l w h)) as M1. pose proof (IZR_le _ _ (Z.le_max_r w h)) as M2.
  split; [rewrite (plus_IZR (-2 + w * i) w); lra|]. split; [rewrite (plus_IZR (-6 + h * j) h); lra|].
  intros z Hz. assert (Ez : z = (1 / 30, 1 / 30)) by (destruct Hz as [<-|[<-|[]]]; reflexivity). subst z. clear Hz.
  destruct (lines_away w h HS) as [LX LY]. cbv zeta in LX, LY.
  assert (M0 : (0 <= Z.max w h)%Z).
  { destruct HS as [H|[H|[H|[H|[H|[H|[H|[H|[]]]]]]]]]; injection H as <- <-; discriminate. }
  set (M := Z.max w h) in *. clearbody M.
  intros [s t] [Hin Hns]. unfold zin, zstrict in *. cbn [fst snd] in *.
  rewrite (Qeq_eqR _ _ A), (Qeq_eqR _ _ B), (Qeq_eqR _ _ C), (Qeq_eqR _ _ D), !Q2R_tw in Hin, Hns.
  pose proof (LX i) as X1. pose proof (LX (i + 1)%Z) as X2. pose proof (LY j) as Y1. pose proof (LY (j + 1)%Z) as Y2.
  replace (-2 + w * (i + 1))%Z with (-2 + w * i + w)%Z in X2 by lia.
  replace (-6 + h * (j + 1))%Z with (-6 + h * j + h)%Z in Y2 by lia.
  apply (fun H => line_away _ _ H M0) in X1, X2, Y1, Y2.
  replace (1 / 6 * (IZR M / 20)) with (IZR M / 120) by lra. apply IZR_le in M0.
  apply dist_lower; [lra|].
  pose proof (Rle_0_sqr (s - 1 / 30)) as S1. pose proof (Rle_0_sqr (t - 1 / 30)) as S2. unfold Rsqr in S1, S2.
  destruct (Req_dec s (IZR (-2 + w * i) / 20)) as [->|N1]; [lra|].
  destruct (Req_dec s (IZR (-2 + w * i + w) / 20)) as [->|N2]; [lra|].
  destruct (Req_dec t (IZR (-6 + h * j) / 20)) as [->|N3]; [lra|].
  destruct (Req_dec t (IZR (-6 + h * j + h) / 20)) as [->|N4]; [lra|].
  exfalso. apply Hns. lra.
Qed.

Notation pair_f := (fun p => times (1, 0) (product_of pair30 p)).
Notation pair_df := (fun p => times (1, 0) (derivative_of pair30 p)).

Lemma pair_resolved : quad_resolved pair_f pair_df pair30 (1, 1)%Z (rect_of small_x).
Proof.
  apply (C74_polynomial_lemma (1, 0) pair30 (1, 1)%Z (rect_of small_x) (1 / 6)).
  - intro H. injection H. lra.
  - reflexivity.
  - reflexivity.
  - lra.
  - exact pair_inside.
  - cbn [pair30 List.length INR]. lra.
Qed.

Lemma odd_converts : converts odd_turns (1 / 2000).
Proof. exact (proj1 odd_turns_faithful). Qed.

Lemma pair_separated t P : separated t P pair30.
Proof. intros z1 z2 H1 H2 _ _. destruct H1 as [<-|[<-|[]]], H2 as [<-|[<-|[]]]; reflexivity. Qed.

Lemma pair_search fuel depth debug s0 iter :
  (2 <= fuel)%nat -> (8 < depth)%nat -> iteration_order iter ->
  let E := quad_env odd_turns romberg (called pair_f) (Some (called pair_df)) (1, 1)%Z fuel debug
    (fun _ _ => Err RuntimeError) (fun _ => Err RuntimeError) (fun _ => Err RuntimeError) true false in
  let out := calculateRoots demo_f None (0, 0)%Z (argument_algorithm E Simple depth (fun _ => true) s0)
    (0, 1 # 10)%Q (0, 1 # 10)%Q None (rc_init None (3, 3)%Z) in
  snd out = Ok tt /\
  exists c, In (c, 2%Z) (reported_pairs iter (fst out)) /\ within 1 (1, 1)%Z c (1 / 30, 1 / 30) /\
    forall c' k', In (c', k') (reported_pairs iter (fst out)) -> (c', k') = (c, 2%Z).
Proof.
  intros Hf Hd HI E out.
  destruct (C74_complete_lemma pair_f pair_df pair30 odd_turns (1 / 2000) (1, 1)%Z fuel debug
    (fun _ _ => Err RuntimeError) (fun _ => Err RuntimeError) (fun _ => Err RuntimeError) true false
    odd_converts ltac:(lra) Hf depth (fun _ => true) s0 demo_f None (0, 0)%Z (0, 1 # 10)%Q (0, 1 # 10)%Q None
    None (3, 3)%Z iter 4%nat 4%nat HI pair_resolved) as (A & B & C & D & F).
  - vm_compute. reflexivity.
  - vm_compute. reflexivity.
  - lia.
  - fold E in A, B, C, D, F. fold out in A, B, C, D, F.
    split; [exact A|]. specialize (F (pair_separated _ _)). specialize (D (pair_separated _ _)).
    change (search_precision (0, 0)%Z None) with (1, 1)%Z in *.
    destruct (F (1 / 30, 1 / 30) (or_introl eq_refl)) as (c & k & F1 & F2 & F3 & F4).
    { unfold requested. cbn [fst snd]. change (Qmin 0 (1 # 10)) with 0%Q. change (Qmax 0 (1 # 10)) with (1 # 10)%Q.
      unfold Q2R. cbn. lra. }
    assert (K : k = 2%Z).
    { rewrite (F3 point_dec).
      cbn [pair30 count_occ]. destruct (point_dec (1 / 30, 1 / 30) (1 / 30, 1 / 30)) as [_|N]; [reflexivity|congruence]. }
    subst k. exists c. split; [exact F1|]. split; [exact F2|].
    intros c' k' H'. destruct (C c' k' H') as (_ & z & Hz & _ & HW). apply (F4 c' k' H').
    destruct Hz as [<-|[<-|[]]]; exact HW.
Qed.
