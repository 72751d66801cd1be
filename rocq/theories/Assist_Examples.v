(** Searches of the Newton-assisted algorithm: a simple zero at (1 + i) / 300, searched for in
    [0, 1/100] x [0, 1/100] with one decimal (all hypotheses are met, by both estimators);
    two zeros with an exact estimator, one of which is found by iteration; and the same search
    with a derivative, which reports one zero twice. *)
From Coq Require Import Reals Qreals Qminmax.
From Verif Require Import PyBase Rounding_Model Rounding_Proofs Container_Model Container_Spec Finder_Model Finder_Spec
  Refine_Model Refine_Spec Zeros_Spec Zeros_Proofs Refine_Examples Cache_Model Sum_Model Sum_Spec Quad_Spec Arg_Spec Arg_Proofs Arg_Examples Moment_Spec
  EndToEnd_Model EndToEnd_Spec EndToEnd_Examples Whole_Model Whole_Spec Whole_Proofs Whole_Examples
  Qsearch_Model Qsearch_Spec Qsearch_Proofs Qsearch_Proofs2 Qsearch_Examples
  Assist_Spec Assist_Proofs4.
From Coq Require Import Lqa Lra.
Open Scope R_scope.

Definition lone : list point := [(1 / 300, 1 / 300)].
Definition lone_x (df : option holoFunc) : rctx := serial_context demo_f df (1, 1)%Z (0, 1 # 100)%Q (0, 1 # 100)%Q None.
Definition tw2 (a : Z) : Q := (inject_Z a / 200)%Q.
Definition lined (q : rect) : Prop := exists i j w h, In (w, h) shapes2 /\
  (x1 q == 0 + tw2 (-2 + w * i) /\ x2 q == 0 + tw2 (-2 + w * i + w) /\
   y1 q == 0 + tw2 (-6 + h * j) /\ y2 q == 0 + tw2 (-6 + h * j + h))%Q.

Lemma pow10_m2 : (pow10 (-2) == 1 # 100)%Q.
Proof. reflexivity. Qed.
Lemma tw2_diff o a w : (o + tw2 (a + w) - (o + tw2 a) == inject_Z w / 200)%Q.
Proof. unfold tw2. rewrite inject_Z_plus. field. Qed.
Lemma tw2_mid o a w : (exists k, w = 2 * k)%Z -> ((o + tw2 a + (o + tw2 (a + w))) / 2 == o + tw2 (a + w / 2))%Q.
Proof.
  intros [k ->]. rewrite Z.mul_comm, Z.div_mul by lia. unfold tw2. rewrite !inject_Z_plus, inject_Z_mult.
  change (inject_Z 2) with 2%Q. field.
Qed.

Lemma lined_dims o q a c w h :
  (x1 q == fst o + tw2 a /\ x2 q == fst o + tw2 (a + w) /\ y1 q == snd o + tw2 c /\ y2 q == snd o + tw2 (c + h))%Q ->
  (x2 q - x1 q == inject_Z w / 200 /\ y2 q - y1 q == inject_Z h / 200)%Q.
Proof. intros (A & B & C & D). rewrite A, B, C, D. split; apply tw2_diff. Qed.

Lemma lined_wider q w h : (x2 q - x1 q == inject_Z w / 200 /\ y2 q - y1 q == inject_Z h / 200)%Q ->
  wider (2, 2)%Z q <-> (h < w)%Z.
Proof.
  intros [A B]. unfold wider. cbn [fst snd]. change (- (2))%Z with (-2)%Z. rewrite A, B.
  setoid_replace (inject_Z h / 200 / pow10 (-2))%Q with (inject_Z h / 2)%Q by (rewrite pow10_m2; field).
  setoid_replace (inject_Z w / 200 / pow10 (-2))%Q with (inject_Z w / 2)%Q by (rewrite pow10_m2; field).
  rewrite Zlt_Qlt. unfold Qdiv. split; intro H.
  - apply (Qmult_lt_r _ _ (/ 2)); [reflexivity|exact H].
  - apply Qmult_lt_r; [reflexivity|exact H].
Qed.

Lemma lined_cells r q : lined r -> cell_of (2, 2)%Z r q -> lined q.
Proof.
  assert (SUB : forall q, (x2 q - x1 q == inject_Z 1 / 200 /\ y2 q - y1 q == inject_Z 1 / 200)%Q -> sub_tolerance (2, 2)%Z q).
  { intros q0 [A B]. split; cbn [fst snd]; change (- (2))%Z with (-2)%Z; rewrite ?A, ?B, pow10_m2; reflexivity. }
  intro HP.
  induction 1 as [|q _ (i & j & w & h & HS & HC) NS W|q _ (i & j & w & h & HS & HC) NS W
    |q _ (i & j & w & h & HS & HC) NS W|q _ (i & j & w & h & HS & HC) NS W].
  1:{ exact HP. }
  all: pose proof (lined_dims (0, 0)%Q q (-2 + w * i) (-6 + h * j) w h HC) as HD; rewrite (lined_wider q w h HD) in W;
    destruct (shape2_cases w h HS) as [(S1 & S2 & S3)|[(S1 & S2 & S3)|[-> ->]]]; try (exfalso; lia);
    try (exfalso; apply NS, SUB; exact HD); destruct HC as (A & B & C & D).
  - exists (2 * i)%Z, j, (w / 2)%Z, h. split; [exact S1|]. cbn [x1 x2 y1 y2]. rewrite A, B, tw2_mid by eauto.
    replace (-2 + w / 2 * (2 * i))%Z with (-2 + w * i)%Z by lia. repeat split; try reflexivity; assumption.
  - exists (2 * i + 1)%Z, j, (w / 2)%Z, h. split; [exact S1|]. cbn [x1 x2 y1 y2]. rewrite A, B, tw2_mid by eauto.
    replace (-2 + w / 2 * (2 * i + 1))%Z with (-2 + w * i + w / 2)%Z by lia.
    replace (-2 + w * i + w / 2 + w / 2)%Z with (-2 + w * i + w)%Z by lia. repeat split; try reflexivity; assumption.
  - exists i, (2 * j)%Z, w, (h / 2)%Z. split; [exact S1|]. cbn [x1 x2 y1 y2]. rewrite C, D, tw2_mid by eauto.
    replace (-6 + h / 2 * (2 * j))%Z with (-6 + h * j)%Z by lia. repeat split; try reflexivity; assumption.
  - exists i, (2 * j + 1)%Z, w, (h / 2)%Z. split; [exact S1|]. cbn [x1 x2 y1 y2]. rewrite C, D, tw2_mid by eauto.
    replace (-6 + h / 2 * (2 * j + 1))%Z with (-6 + h * j + h / 2)%Z by lia.
    replace (-6 + h * j + h / 2 + h / 2)%Z with (-6 + h * j + h)%Z by lia. repeat split; try reflexivity; assumption.
Qed.

Lemma lone_lined : lined (rect_of (lone_x None)).
Proof. exists 0%Z, 0%Z, 8%Z, 16%Z. split; [cbn; tauto|]. vm_compute. repeat split. Qed.

Lemma Q2R_tw2 a : Q2R (0 + tw2 a) = IZR a / 200.
Proof. rewrite Q2R_plus, RMicromega.Q2R_0. unfold tw2. rewrite Q2R_div by discriminate. unfold inject_Z, Q2R. cbn. lra. Qed.

Lemma line_away2 k M : (M <= 2 * Z.abs (3 * k - 2))%Z -> (0 <= M)%Z ->
  IZR M / 1200 * (IZR M / 1200) <= (IZR k / 200 - 1 / 300) * (IZR k / 200 - 1 / 300).
Proof.
  intros H HM. replace (IZR k / 200 - 1 / 300) with (IZR (3 * k - 2) / 600) by (rewrite minus_IZR, mult_IZR; lra).
  set (a := (3 * k - 2)%Z) in *.
  assert (IZR (M * M) <= IZR (4 * (a * a))) by (apply IZR_le; nia).
  rewrite !mult_IZR in H0. apply IZR_le in HM. lra.
Qed.

Lemma lone_inside : well_inside (1 / 6) lone (2, 2)%Z (rect_of (lone_x None)).
Proof.
  intros q Hq. apply (lined_cells _ _ lone_lined) in Hq. destruct Hq as (i & j & w & h & HS & A & B & C & D).
  exists (IZR (Z.max w h) / 200).
  rewrite (Qeq_eqR _ _ A), (Qeq_eqR _ _ B), (Qeq_eqR _ _ C), (Qeq_eqR _ _ D), !Q2R_tw2.
  pose proof (IZR_le _ _ (Z.le_max_l w h)) as M1. pose proof (IZR_le _ _ (Z.le_max_r w h)) as M2.
  split; [rewrite (plus_IZR (-2 + w * i) w); lra|]. split; [rewrite (plus_IZR (-6 + h * j) h); lra|].
  intros z Hz. assert (Ez : z = (1 / 300, 1 / 300)) by (destruct Hz as [<-|[]]; reflexivity). subst z. clear Hz.
  destruct (lines_away w h HS) as [LX LY]. cbv zeta in LX, LY.
  assert (M0 : (0 <= Z.max w h)%Z).
  { destruct HS as [H|[H|[H|[H|[H|[H|[H|[H|[]]]]]]]]]; injection H as <- <-; discriminate. }
  set (M := Z.max w h) in *. clearbody M.
  intros [s t] [Hin Hns]. unfold zin, zstrict in *. cbn [fst snd] in *.
  rewrite (Qeq_eqR _ _ A), (Qeq_eqR _ _ B), (Qeq_eqR _ _ C), (Qeq_eqR _ _ D), !Q2R_tw2 in Hin, Hns.
  pose proof (LX i) as X1. pose proof (LX (i + 1)%Z) as X2. pose proof (LY j) as Y1. pose proof (LY (j + 1)%Z) as Y2.
  replace (-2 + w * (i + 1))%Z with (-2 + w * i + w)%Z in X2 by lia.
  replace (-6 + h * (j + 1))%Z with (-6 + h * j + h)%Z in Y2 by lia.
  apply (fun H => line_away2 _ _ H M0) in X1, X2, Y1, Y2.
  replace (1 / 6 * (IZR M / 200)) with (IZR M / 1200) by lra. apply IZR_le in M0.
  apply dist_lower; [lra|].
  pose proof (Rle_0_sqr (s - 1 / 300)) as S1. pose proof (Rle_0_sqr (t - 1 / 300)) as S2. unfold Rsqr in S1, S2.
  destruct (Req_dec s (IZR (-2 + w * i) / 200)) as [->|N1]; [lra|].
  destruct (Req_dec s (IZR (-2 + w * i + w) / 200)) as [->|N2]; [lra|].
  destruct (Req_dec t (IZR (-6 + h * j) / 200)) as [->|N3]; [lra|].
  destruct (Req_dec t (IZR (-6 + h * j + h) / 200)) as [->|N4]; [lra|].
  exfalso. apply Hns. lra.
Qed.

Notation lone_f := (fun p => times (1, 0) (product_of lone p)).
Notation lone_df := (fun p => times (1, 0) (derivative_of lone p)).

Lemma lone_quad : quad_resolved lone_f lone_df lone (2, 2)%Z (rect_of (lone_x None)).
Proof.
  apply (C74_polynomial_lemma (1, 0) lone (2, 2)%Z (rect_of (lone_x None)) (1 / 6)).
  - intro H. injection H. lra.
  - reflexivity.
  - reflexivity.
  - lra.
  - exact lone_inside.
  - cbn [lone List.length INR]. lra.
Qed.

Lemma lined_dims2 q : lined q ->
  1 / 200 <= Q2R (x2 q) - Q2R (x1 q) <= 16 / 100 /\ 1 / 200 <= Q2R (y2 q) - Q2R (y1 q) <= 16 / 100.
Proof.
  intros (i & j & w & h & HS & A & B & C & D).
  rewrite (Qeq_eqR _ _ A), (Qeq_eqR _ _ B), (Qeq_eqR _ _ C), (Qeq_eqR _ _ D), !Q2R_tw2.
  rewrite (plus_IZR (-2 + w * i) w), (plus_IZR (-6 + h * j) h).
  assert (1 <= w <= 16 /\ 1 <= h <= 16)%Z as [[U1 U2] [V1 V2]].
  { destruct HS as [H|[H|[H|[H|[H|[H|[H|[H|[]]]]]]]]]; injection H as <- <-; lia. }
  apply IZR_le in U1, U2, V1, V2. lra.
Qed.

Lemma lone_resolved n : (2001 <= Z.of_nat n)%Z -> resolved (zero_product lone) lone n (1 / 2000) (2, 2)%Z (rect_of (lone_x None)).
Proof.
  intro Hn. exists 0, (1 / 10). split; [apply polynomial_factorised|]. split.
  - intros q Hq. destruct (lone_inside q Hq) as (D & D1 & D2 & HD).
    apply (lined_cells _ _ lone_lined) in Hq. destruct (lined_dims2 q Hq) as [[A1 A2] [B1 B2]].
    exists (1 / 1200). split; [lra|]. split.
    { intros w Hw p Hp. specialize (HD w Hw p Hp). lra. }
    assert (N : 2000 <= INR (n - 1)). { rewrite INR_IZR_INZ. apply IZR_le. lia. }
    assert (X : forall u, u <= 16 / 100 -> u / INR (n - 1) * (0 + INR (List.length lone) / (1 / 1200)) <= 1 / 10).
    { intros u Hu. replace (INR (List.length lone)) with 1 by (cbn; lra).
      replace (u / INR (n - 1) * (0 + 1 / (1 / 1200))) with ((1200 * u) / INR (n - 1)) by (field; lra).
      apply Rmult_le_reg_r with (INR (n - 1)); [lra|]. unfold Rdiv. rewrite Rmult_assoc, Rinv_l by lra. lra. }
    rewrite !Q2R_minus. split; apply X; lra.
  - assert (P3 := PI_3).
    assert (4 * (1 / 10) / PI <= 4 / 30).
    { apply Rmult_le_reg_r with PI; [lra|]. unfold Rdiv. rewrite Rmult_assoc, Rinv_l by lra. lra. }
    lra.
Qed.

Lemma lone_dense n : (2001 <= Z.of_nat n)%Z -> dense n (2, 2)%Z (rect_of (lone_x None)).
Proof.
  intro Hn. unfold dense.
  assert (E : (y2 (rect_of (lone_x None)) - y1 (rect_of (lone_x None)) == 8 # 100)%Q) by (vm_compute; reflexivity).
  rewrite E. change (- snd (2, 2)%Z)%Z with (-2)%Z. rewrite pow10_m2.
  assert (N : (inject_Z 2000 <= inject_Z (Z.of_nat (n - 1)))%Q) by (rewrite <- Zle_Qle; lia).
  change (inject_Z 2000) with (2000 # 1)%Q in N. Lqa.lra.
Qed.

(** Iterations that end at 0.0033 (1 + i) and at 0.0034 (1 + i). *)
Definition secant33 (a b : cplx) : res cplx := Ok (33 # 10000, 33 # 10000)%Q.
Definition newton34 (a : cplx) : res cplx := Ok (34 # 10000, 34 # 10000)%Q.

Lemma lone_converging df : converging secant33 newton34 df lone (2, 2)%Z (rect_of (lone_x None)).
Proof.
  assert (E : Q2R (pow10 (- (2))) = 1 / 100) by (vm_compute (pow10 _); unfold Q2R; cbn [Qnum Qden]; reflexivity).
  split; [|intros _]; intros q z _ _ _ _ [<-|[]] _; [|right]; eexists; (split; [reflexivity|]);
    split; cbn [fst snd re im]; rewrite E; unfold Q2R; cbn [Qnum Qden]; apply Rabs_def1; lra.
Qed.

Lemma lone_separated t P : separated t P lone.
Proof. intros z1 z2 [<-|[]] [<-|[]] _ _. reflexivity. Qed.
Lemma lone_requested : requested (0, 1 # 100)%Q (0, 1 # 100)%Q (1 / 300, 1 / 300).
Proof.
  unfold requested. cbn [fst snd]. change (Qmin 0 (1 # 100)) with 0%Q. change (Qmax 0 (1 # 100)) with (1 # 100)%Q.
  unfold Q2R. cbn. lra.
Qed.

(** With the summation estimator and no derivative: found once. *)
Lemma lone_sum_search n fuel depth debug iter :
  (2001 <= Z.of_nat n)%Z -> (100 * n + 3 <= fuel)%nat -> (8 < depth)%nat -> iteration_order iter ->
  let E := sum_env odd_turns (zero_product lone) (1 / 100) (1 # 10000000000) n (1, 1)%Z fuel debug
    secant33 newton34 (fun _ => Err RuntimeError) false false in
  let out := calculateRoots demo_f None (1, 1)%Z (argument_algorithm E NewtonV depth (fun _ => true) new_estimator)
    (0, 1 # 100)%Q (0, 1 # 100)%Q None (rc_init None (3, 3)%Z) in
  snd out = Ok tt /\
  exists c, In (c, 1%Z) (reported_pairs iter (fst out)) /\ within 1 (2, 2)%Z c (1 / 300, 1 / 300) /\
    forall c' k', In (c', k') (reported_pairs iter (fst out)) -> (c', k') = (c, 1%Z).
Proof.
  intros Hn Hf Hd HI E out.
  assert (N2 : (2 <= n)%nat) by lia.
  destruct (C75_sum_complete_lemma lone odd_turns (1 / 2000) (1, 1)%Z fuel debug secant33 newton34 (fun _ => Err RuntimeError) false false
    depth demo_f None (1, 1)%Z (0, 1 # 100)%Q (0, 1 # 100)%Q None None (3, 3)%Z iter HI
    (zero_product lone) (1 / 100) (1 # 10000000000) n ltac:(lra) N2 Hf odd_turns_faithful (fun _ => true) 4 4
    (lone_resolved n Hn) (lone_dense n Hn) (lone_converging None)) as (A & B & C & D & F).
  - vm_compute. reflexivity.
  - vm_compute. reflexivity.
  - lia.
  - fold E in A, B, C, D, F. fold out in A, B, C, D, F.
    split; [exact A|]. specialize (F eq_refl (lone_separated _ _)).
    change (search_precision (1, 1)%Z None) with (2, 2)%Z in *.
    destruct (F (1 / 300, 1 / 300) (or_introl eq_refl) lone_requested) as (c & k & F1 & F2 & F3 & F4).
    assert (K : k = 1%Z).
    { rewrite (F3 point_dec).
      cbn [lone count_occ]. destruct (point_dec (1 / 300, 1 / 300) (1 / 300, 1 / 300)) as [_|N]; [reflexivity|congruence]. }
    subst k. exists c. split; [exact F1|]. split; [exact F2|].
    intros c' k' H'. destruct (C c' k' H') as (_ & z & Hz & _ & HW). apply (F4 c' k' H').
    destruct Hz as [<-|[]]; exact HW.
Qed.

(** With the quadrature estimator and a derivative: found, with order 1. *)
Lemma lone_quad_search fuel depth debug s0 iter :
  (2 <= fuel)%nat -> (8 < depth)%nat -> iteration_order iter ->
  let E := quad_env odd_turns romberg (called lone_f) (Some (called lone_df)) (1, 1)%Z fuel debug
    secant33 newton34 (fun _ => Err RuntimeError) true false in
  let out := calculateRoots demo_f (Some demo_f) (1, 1)%Z (argument_algorithm E NewtonV depth (fun _ => true) s0)
    (0, 1 # 100)%Q (0, 1 # 100)%Q None (rc_init None (3, 3)%Z) in
  snd out = Ok tt /\
  (exists c, In (c, 1%Z) (reported_pairs iter (fst out)) /\ within 1 (2, 2)%Z c (1 / 300, 1 / 300)) /\
  forall c k, In (c, k) (reported_pairs iter (fst out)) -> k = 1%Z /\ within 1 (2, 2)%Z c (1 / 300, 1 / 300).
Proof.
  intros Hf Hd HI E out.
  destruct (C75_quad_complete_lemma lone odd_turns (1 / 2000) (1, 1)%Z fuel debug secant33 newton34 (fun _ => Err RuntimeError) true false
    depth demo_f (Some demo_f) (1, 1)%Z (0, 1 # 100)%Q (0, 1 # 100)%Q None None (3, 3)%Z iter HI
    lone_f lone_df odd_converts ltac:(lra) Hf (fun _ => true) s0 4%nat 4%nat lone_quad (lone_converging (Some demo_f))) as (A & B & C & D & _).
  - vm_compute. reflexivity.
  - vm_compute. reflexivity.
  - lia.
  - fold E in A, B, C, D. fold out in A, B, C, D.
    split; [exact A|]. specialize (D (lone_separated _ _)).
    change (search_precision (1, 1)%Z None) with (2, 2)%Z in *.
    assert (G : forall c k, In (c, k) (reported_pairs iter (fst out)) -> k = 1%Z /\ within 1 (2, 2)%Z c (1 / 300, 1 / 300)).
    { intros c k H. destruct (C c k H) as (_ & z & Hz & _ & HW).
      destruct (D c k H) as (z' & Hz' & _ & _ & Hk).
      destruct Hz as [<-|[]]. destruct Hz' as [<-|[]]. split; [|exact HW].
      rewrite (Hk point_dec). cbn [lone count_occ].
      destruct (point_dec (1 / 300, 1 / 300) (1 / 300, 1 / 300)) as [_|N]; [reflexivity|congruence]. }
    split; [|exact G].
    destruct (B (1 / 300, 1 / 300) (or_introl eq_refl) lone_requested) as (c & k & F1 & F2).
    exists c. destruct (G c k F1) as [-> HW]. split; assumption.
Qed.

(** Exact estimator; iterations that end near (5 + 4i) / 3. *)
Definition assist_env (s n : cplx) : env unit :=
  mkEnv (S := unit) (fun _ r _ => (tt, [], Ok (inject_Z (Z.of_nat (qcount demo_qzeros r)), 0%Q)))
    (fun _ _ s => s) (fun _ => false) (fun s => s)
    (fun _ _ => Ok s) (fun _ => Ok n) (fun _ => Err ValueError) true (3, 3)%Z true.
Definition close_hit : cplx := (16670 # 10000, 13333 # 10000)%Q.
Definition other_hit : cplx := (16663 # 10000, 13333 # 10000)%Q.

Lemma assist_reliable s n P r : decimal_rect r -> reliable (assist_env s n) demo_zeros P r.
Proof. exact (demo_reliable P r). Qed.

Lemma hits_near c : c = close_hit \/ c = other_hit -> near (3, 3)%Z c (qpoint (5 # 3, 4 # 3)%Q).
Proof.
  assert (E : Q2R (pow10 (- (3))) = 1 / 1000) by (vm_compute (pow10 _); unfold Q2R; cbn [Qnum Qden]; reflexivity).
  intros [-> | ->]; split; cbn [fst snd re im qpoint close_hit other_hit]; rewrite E; unfold Q2R; cbn [Qnum Qden];
    apply Rabs_def1; lra.
Qed.

Lemma assist_converging s n df r : (s = close_hit \/ s = other_hit) -> (n = close_hit \/ n = other_hit) ->
  converging (e_secant (assist_env s n)) (e_newton (assist_env s n)) df demo_zeros (3, 3)%Z r.
Proof.
  intros Hs Hn.
  assert (Z : forall q z, count demo_zeros q = 1%nat -> In z demo_zeros -> zin q z -> z = qpoint (5 # 3, 4 # 3)%Q).
  { intros q z HC HZ Hin. unfold demo_zeros, demo_qzeros, map in HZ, HC.
    destruct HZ as [<-|[<-|[<-|[]]]]; [| |reflexivity]; exfalso; revert HC; unfold count;
      apply zinb_true in Hin; cbn [filter]; rewrite Hin; cbn [List.length]; discriminate. }
  split; [|intros _]; intros q z _ _ _ HC HZ Hin; rewrite (Z q z HC HZ Hin); [|right]; eexists; (split; [reflexivity|]);
    apply hits_near; assumption.
Qed.

Definition assist_x (df : option holoFunc) : rctx := serial_context demo_f df (2, 2)%Z (2, 0)%Q (0, 2)%Q None.
Lemma assist_decimal df : decimal_rect (rect_of (assist_x df)).
Proof.
  unfold decimal_rect. repeat split; [exists 3%nat, (-1)%Z|exists 3%nat, 2002%Z|exists 3%nat, (-3)%Z|exists 3%nat, 2004%Z];
    vm_compute; reflexivity.
Qed.
Lemma assist_separated : separated 2 (3, 3)%Z demo_zeros.
Proof.
  assert (E : Q2R (pow10 (- (3))) = 1 / 1000) by (vm_compute (pow10 _); unfold Q2R; cbn [Qnum Qden]; reflexivity).
  intros z1 z2 H1 H2 A B. apply (proj1 demo_separated); [exact H1|exact H2| |]; cbn [fst snd] in *; rewrite E in *;
    assert (E' : Q2R (pow10 (- (1))) = 1 / 10) by (vm_compute (pow10 _); unfold Q2R; cbn [Qnum Qden]; reflexivity); rewrite E'; lra.
Qed.
Lemma assist_halvings :
  halvings (Qabs (2 - 0) + 3 * pow10 (- 3)) 3 11 /\ halvings (Qabs (0 - 2) + 7 * pow10 (- 3)) 3 11.
Proof. split; vm_compute; reflexivity. Qed.

Definition assist_out (df : option holoFunc) (s n : cplx) :=
  calculateRoots demo_f df (2, 2)%Z (argument_algorithm (assist_env s n) NewtonV 23 (fun _ => true) tt)
    (2, 0)%Q (0, 2)%Q None (rc_init None (3, 3)%Z).
Lemma assist_output :
  reported_pairs (fun l => l) (fst (assist_out None close_hit other_hit)) =
  [((333 # 1000)%Q, (167 # 500)%Q, 2%Z); ((1667 # 1000)%Q, (1333 # 1000)%Q, 1%Z)].
Proof. vm_compute. reflexivity. Qed.
Lemma assist_twice :
  reported_pairs (fun l => l) (fst (assist_out (Some demo_f) close_hit other_hit)) =
  [((333 # 1000)%Q, (167 # 500)%Q, 2%Z); ((1667 # 1000)%Q, (1333 # 1000)%Q, 1%Z); ((833 # 500)%Q, (1333 # 1000)%Q, 1%Z)].
Proof. vm_compute. reflexivity. Qed.

Lemma C75_once_refuted_lemma :
  exists (E : env unit) zeros depth f df dflt reRan imRan,
  let P := search_precision dflt None in
  let r := rect_of (serial_context f df dflt reRan imRan None) in
  let out := calculateRoots f df dflt (argument_algorithm E NewtonV depth (fun _ => true) tt) reRan imRan None (rc_init None dflt) in
  reliable E zeros P r /\ converging (e_secant E) (e_newton E) df zeros P r /\ separated 2 P zeros /\ snd out = Ok tt /\
  exists z c1 c2, In z zeros /\ requested reRan imRan z /\ within 1 P c1 z /\ within 1 P c2 z /\ ~ (re c1 == re c2)%Q /\
    In (c1, 1%Z) (reported_pairs (fun l => l) (fst out)) /\ In (c2, 1%Z) (reported_pairs (fun l => l) (fst out)).
Proof.
  exists (assist_env close_hit other_hit), demo_zeros, 23%nat, demo_f, (Some demo_f), (2, 2)%Z, (2, 0)%Q, (0, 2)%Q.
  cbv zeta. change (search_precision (2, 2)%Z None) with (3, 3)%Z.
  split; [exact (assist_reliable _ _ _ _ (assist_decimal (Some demo_f)))|].
  split; [exact (assist_converging close_hit other_hit _ _ (or_introl eq_refl) (or_intror eq_refl))|].
  split; [exact assist_separated|]. split; [vm_compute; reflexivity|].
  exists (qpoint (5 # 3, 4 # 3)%Q), (1667 # 1000, 1333 # 1000)%Q, (833 # 500, 1333 # 1000)%Q.
  split; [right; right; left; reflexivity|].
  assert (E : Q2R (pow10 (- (3))) = 1 / 1000) by (vm_compute (pow10 _); unfold Q2R; cbn [Qnum Qden]; reflexivity).
  split. { unfold requested. cbn [fst snd qpoint re im]. change (Qmin 2 0) with 0%Q. change (Qmax 2 0) with 2%Q.
    change (Qmin 0 2) with 0%Q. change (Qmax 0 2) with 2%Q. unfold Q2R. cbn [Qnum Qden]. lra. }
  split. { split; cbn [fst snd re im qpoint]; rewrite E; unfold Q2R; cbn [Qnum Qden]; (apply Rabs_def1 || apply Rabs_le); lra. }
  split. { split; cbn [fst snd re im qpoint]; rewrite E; unfold Q2R; cbn [Qnum Qden]; (apply Rabs_def1 || apply Rabs_le); lra. }
  split; [discriminate|].
  assert (O : reported_pairs (fun l => l) (fst (calculateRoots demo_f (Some demo_f) (2, 2)%Z
      (argument_algorithm (assist_env close_hit other_hit) NewtonV 23 (fun _ => true) tt) (2, 0)%Q (0, 2)%Q None (rc_init None (2, 2)%Z))) =
    [((333 # 1000)%Q, (167 # 500)%Q, 2%Z); ((1667 # 1000)%Q, (1333 # 1000)%Q, 1%Z); ((833 # 500)%Q, (1333 # 1000)%Q, 1%Z)])
    by (vm_compute; reflexivity).
  rewrite O. split; [right; left; reflexivity|right; right; left; reflexivity].
Qed.
