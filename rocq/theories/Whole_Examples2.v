(** * Two searches of one finder: one that loses a zero, and two that do not interfere *)
From Coq Require Import Reals Qreals Qminmax.
From Verif Require Import PyBase Rounding_Model Rounding_Proofs Poly_Model Container_Model Container_Spec Finder_Model Finder_Spec
  Refine_Model Refine_Spec Refine_Proofs Zeros_Spec Zeros_Proofs Cache_Model Cache_Spec Cache_Proofs
  Sum_Model Sum_Spec Angle_Proofs Sum_Proofs Sum_Proofs2 Sum_Proofs3 Sum_Proofs4 Sum_Proofs5 Sum_Proofs6
  Arg_Spec Arg_Proofs Arg_Proofs2 Arg_Proofs3 Arg_Proofs4 Arg_Examples
  EndToEnd_Model EndToEnd_Spec EndToEnd_Examples Whole_Model Whole_Spec Whole_Entry Whole_Proofs Whole_Proofs3 Whole_Examples Whole_Stale.
From Coq Require Import Lqa Lra.
Open Scope R_scope.

(** A simple zero at (13 + i) / 15. *)
Definition lone : list point := [(IZR 52 / 60, IZR 4 / 60)].
Definition first_x : rctx := serial_context demo_f None (0, 0)%Z (0, 0)%Q (0, 0)%Q None.
Definition second_x : rctx := serial_context demo_f None (0, 0)%Z (0, 13 # 10)%Q (0, 1 # 10)%Q None.
Notation P11 := (1, 1)%Z (only parsing).

Lemma second_placed : placed (0, 0)%Q (rect_of second_x).
Proof. exists (-2)%Z, (-6)%Z, 32%Z, 16%Z. split; [cbn; tauto|]. vm_compute. repeat split. Qed.

Lemma lone_sampled n u : (1001 <= Z.of_nat n)%Z -> u <= 16 / 10 ->
  u / INR (n - 1) * (0 + INR (List.length lone) / (1 / 60)) <= 1 / 10.
Proof.
  intros Hn Hu.
  assert (N : 1000 <= INR (n - 1)). { rewrite INR_IZR_INZ. apply IZR_le. lia. }
  replace (INR (List.length lone)) with 1 by (cbn; lra).
  replace (u / INR (n - 1) * (0 + 1 / (1 / 60))) with ((60 * u) / INR (n - 1)) by (field; lra).
  apply Rmult_le_reg_r with (INR (n - 1)); [lra|]. unfold Rdiv. rewrite Rmult_assoc, Rinv_l by lra. lra.
Qed.

Lemma lone_cells n q : (1001 <= Z.of_nat n)%Z -> placed (0, 0)%Q q -> well_sampled n (1 / 10) 0 lone q.
Proof.
  intros Hn HP. exists (1 / 60). split; [lra|]. split.
  - intros w [<-|[]]. apply placed_distance; [discriminate|discriminate|exact HP].
  - destruct (placed_size _ q HP) as [A B]. split; apply lone_sampled; try exact Hn; lra.
Qed.

Lemma lone_resolved n eps : (1001 <= Z.of_nat n)%Z -> eps <= 1 / 100 ->
  resolved (zero_product lone) lone n eps P11 (rect_of second_x).
Proof.
  intros Hn He. exists 0, (1 / 10). split; [apply polynomial_factorised|]. split.
  - intros q Hq. apply lone_cells; [exact Hn|]. exact (placed_cells _ _ _ second_placed Hq).
  - assert (P3 := PI_3).
    assert (4 * (1 / 10) / PI <= 4 / 30).
    { apply Rmult_le_reg_r with PI; [lra|]. unfold Rdiv. rewrite Rmult_assoc, Rinv_l by lra. lra. }
    lra.
Qed.

Lemma lone_dense n : (1001 <= Z.of_nat n)%Z -> dense n P11 (rect_of second_x).
Proof.
  intro Hn. unfold dense.
  assert (E : (y2 (rect_of second_x) - y1 (rect_of second_x) == 8 # 10)%Q) by (vm_compute; reflexivity).
  rewrite E. change (- snd P11)%Z with (-1)%Z. rewrite pow10_m1.
  assert (N : (inject_Z 1000 <= inject_Z (Z.of_nat (n - 1)))%Q) by (rewrite <- Zle_Qle; lia).
  change (inject_Z 1000) with (1000 # 1)%Q in N. Lqa.lra.
Qed.

Lemma lone_first n : (1001 <= Z.of_nat n)%Z -> well_sampled n (1 / 10) 0 lone (rect_of first_x).
Proof.
  intros Hn. exists (1 / 60). split; [lra|]. split.
  - intros w [<-|[]]. apply (grid_distance _ (-2) 4 (-6) 8); try discriminate; vm_compute; reflexivity.
  - assert (A : (x2 (rect_of first_x) - x1 (rect_of first_x) == 3 # 10)%Q) by (vm_compute; reflexivity).
    assert (B : (y2 (rect_of first_x) - y1 (rect_of first_x) == 7 # 10)%Q) by (vm_compute; reflexivity).
    rewrite (Qeq_eqR _ _ A), (Qeq_eqR _ _ B).
    split; apply lone_sampled; try exact Hn; unfold Q2R; cbn; lra.
Qed.

(** The angle under which the zero sees the part of the bottom side that is lost. *)
Lemma lost_bottom : PI / 2 <=
  Theta lone (fun _ => 0) true (-3 # 10) (150 # 100) - Theta lone (fun _ => 0) true (-3 # 10) (2 # 10).
Proof.
  unfold Theta, angs, lone. cbn [fold_right along across fst snd].
  assert (E1 : Q2R (-3 # 10) = -3 / 10) by (unfold Q2R; cbn; lra).
  assert (E2 : Q2R (150 # 100) = 15 / 10) by (unfold Q2R; cbn; lra).
  assert (E3 : Q2R (2 # 10) = 2 / 10) by (unfold Q2R; cbn; lra).
  rewrite E1, E2, E3.
  match goal with |- _ <= ?A + 0 + 0 - (?B + 0 + 0) => replace (A + 0 + 0 - (B + 0 + 0)) with (A - B) by ring end.
  rewrite ang_diff by (left; lra). unfold sg, at0.
  destruct (Req_EM_T (-3 / 10 - 4 / 60) 0) as [C|_]; [lra|].
  replace ((15 / 10 - 52 / 60) / (-3 / 10 - 4 / 60)) with (- (38 / 22)) by lra.
  replace ((2 / 10 - 52 / 60) / (-3 / 10 - 4 / 60)) with (40 / 22) by lra.
  rewrite atan_opp.
  assert (A1 : atan 1 < atan (38 / 22)) by (apply atan_increasing; lra).
  assert (A2 : atan 1 < atan (40 / 22)) by (apply atan_increasing; lra).
  rewrite atan_1 in A1, A2. lra.
Qed.

Lemma lost_left :
  Theta lone (fun _ => 0) false (-1 # 10) (50 # 100) - Theta lone (fun _ => 0) false (-1 # 10) (4 # 10) <= 0.
Proof.
  unfold Theta, angs, lone. cbn [fold_right along across fst snd].
  assert (E1 : Q2R (-1 # 10) = -1 / 10) by (unfold Q2R; cbn; lra).
  assert (E2 : Q2R (50 # 100) = 5 / 10) by (unfold Q2R; cbn; lra).
  assert (E3 : Q2R (4 # 10) = 4 / 10) by (unfold Q2R; cbn; lra).
  rewrite E1, E2, E3.
  match goal with |- ?A + 0 + 0 - (?B + 0 + 0) <= _ => replace (A + 0 + 0 - (B + 0 + 0)) with (A - B) by ring end.
  rewrite ang_diff by (left; lra). unfold sg, at0.
  destruct (Req_EM_T (-1 / 10 - 52 / 60) 0) as [C|_]; [lra|].
  assert (A1 : atan ((5 / 10 - 4 / 60) / (-1 / 10 - 52 / 60)) < atan ((4 / 10 - 4 / 60) / (-1 / 10 - 52 / 60))) by (apply atan_increasing; lra).
  lra.
Qed.

Lemma lone_counts : count lone (rect_of first_x) = 0%nat /\ count lone (rect_of second_x) = 1%nat.
Proof.
  change (rect_of first_x) with (mkRect (-1 # 10) (2 # 10) (-3 # 10) (4 # 10)).
  change (rect_of second_x) with (mkRect (-1 # 10) (150 # 100) (-3 # 10) (50 # 100)).
  unfold count, lone. cbn [filter]. unfold zinb. cbn [x1 x2 y1 y2 fst snd].
  replace (Q2R (-1 # 10)) with (-1 / 10) by (unfold Q2R; cbn; lra).
  replace (Q2R (2 # 10)) with (2 / 10) by (unfold Q2R; cbn; lra).
  replace (Q2R (-3 # 10)) with (-3 / 10) by (unfold Q2R; cbn; lra).
  replace (Q2R (4 # 10)) with (4 / 10) by (unfold Q2R; cbn; lra).
  replace (Q2R (150 # 100)) with (15 / 10) by (unfold Q2R; cbn; lra).
  replace (Q2R (50 # 100)) with (5 / 10) by (unfold Q2R; cbn; lra).
  repeat match goal with |- context [between_dec ?a ?b ?c] => destruct (between_dec a b c); try (exfalso; lra) end.
  split; reflexivity.
Qed.

(** A search whose first estimate is below the threshold. *)
Lemma low_search turns g delta mp n eprec fuel debug secant newton polyroots has_df progress x depth info s s1 m :
  let E := sum_env turns g delta mp n eprec fuel debug secant newton polyroots has_df progress in
  cached_moment (turn_line turns g delta mp n eprec fuel) debug 0 (rect_of x)
    (if ec_dirty (fst s) then (ec_reset (fst s), snd s) else s) = (s1, [], Ok m) ->
  (re m < TWO_PI)%Q ->
  argument_algorithm E Simple (Datatypes.S depth) info s x = mkRun [] None /\ leaves E (Datatypes.S depth) x s = s1.
Proof.
  intros E H Hm. unfold argument_algorithm, leaves, calcRoots.
  assert (X : (if e_dirty (env_for E x) s then e_reset (env_for E x) s else s) =
              (if ec_dirty (fst s) then (ec_reset (fst s), snd s) else s)) by reflexivity.
  rewrite X. unfold mbind, calcMoment. cbn [e_est env_for E sum_env cached_env]. rewrite H.
  cbn [decideRefinement]. unfold decide_simple. assert (Qltb (re m) TWO_PI = true) as -> by (apply Qltb_true; exact Hm).
  unfold mseq, mbind, emit, advance. cbn [map app].
  destruct (e_progress _); split; reflexivity.
Qed.

Lemma below_Q a e b : Rabs (Q2R a - b) <= e -> b + e < 8 / 10 -> (a < TWO_PI)%Q.
Proof.
  intros H1 H2. apply Rlt_Qlt. replace (Q2R TWO_PI) with (8 / 10) by (unfold Q2R; cbn; lra).
  unfold Rabs in H1. destruct (Rcase_abs (Q2R a - b)); lra.
Qed.

Lemma empty_search f df dflt reRan imRan prec c iter alg : iteration_order iter ->
  alg (serial_context f df dflt reRan imRan prec) = mkRun [] None ->
  calculateRoots f df dflt alg reRan imRan prec c = (c, Ok tt).
Proof. intros HI H. unfold calculateRoots. rewrite H. reflexivity. Qed.

Section Loss.
  Variables (turns : R -> Q) (eps : R) (n : nat) (eprec : Z * Z) (fuel depth : nat) (debug : bool) (info : root -> bool)
    (iter : list root -> list root).
  Hypothesis turns_ok : faithful turns eps.
  Hypothesis eps_ok : eps <= 1 / 100.
  Hypothesis n_ok : (1001 <= Z.of_nat n)%Z.
  Hypothesis fuel_ok : (100 * n + 3 <= fuel)%nat.
  Hypothesis depth_ok : (9 < depth)%nat.
  Hypothesis iter_ok : iteration_order iter.
  Notation E := (sum_env turns (zero_product lone) (1 / 100) (1 # 10000000000) n eprec fuel debug
    (fun _ _ => Err RuntimeError) (fun _ => Err RuntimeError) (fun _ => Err RuntimeError) false false).

  Lemma two_searches :
    argument_algorithm E Simple depth info new_estimator first_x = mkRun [] None /\
    argument_algorithm E Simple depth info (leaves E depth first_x new_estimator) second_x = mkRun [] None.
  Proof.
    destruct depth as [|d] eqn:Ed; [exfalso; clear - depth_ok; lia|].
    assert (P3 := PI_3). pose proof lone_counts as [K1 K2].
    destruct turns_ok as [T _].
    destruct (stale_pair (zero_product lone) lone 0 (fun _ => 1) (fun _ => 0) (-1 # 10) (2 # 10) (150 # 100) (-3 # 10) (4 # 10) (50 # 100))
      with (eta := 1 / 10) (turns := turns) (eps := eps) (delta := 1 / 100) (mp := (1 # 10000000000)%Q) (n := n) (prec := eprec)
           (fuel := fuel) (debug := debug) as (c1 & st' & m1 & E1 & B1 & S2).
    all: try reflexivity; try lra; try assumption.
    - apply product_proper.
    - intros z _. split; [lra|]. rewrite cos_0, sin_0, Rmult_1_r, Rmult_0_r, cmulR_1. reflexivity.
    - intros. rewrite Rminus_eq_0, Rabs_R0. lra.
    - clear - n_ok. lia.
    - exact (lone_first n n_ok).
    - exact (lone_cells n _ n_ok second_placed).
    - change (mkRect (-1 # 10) (2 # 10) (-3 # 10) (4 # 10)) with (rect_of first_x) in E1, B1.
      change (mkRect (-1 # 10) (150 # 100) (-3 # 10) (50 # 100)) with (rect_of second_x) in S2.
      rewrite K1 in B1. rewrite K2 in S2.
      assert (M1 : (re m1 < TWO_PI)%Q) by (apply (below_Q _ _ _ B1); cbn [INR]; lra).
      destruct (low_search turns (zero_product lone) (1 / 100) (1 # 10000000000) n eprec fuel debug
        (fun _ _ => Err RuntimeError) (fun _ => Err RuntimeError) (fun _ => Err RuntimeError) false false first_x d info
        new_estimator (c1, st') m1 E1 M1) as [R1 R2].
      split; [exact R1|]. rewrite R2.
      destruct (S2 (if ec_dirty c1 then ec_reset c1 else c1) (start_cache c1)) as (s2 & m2 & E2 & B2).
      assert (M2 : (re m2 < TWO_PI)%Q).
      { apply (below_Q _ _ _ B2). pose proof lost_bottom as LB. pose proof lost_left as LL. cbn [INR].
        set (u := Theta lone (fun _ => 0) true (-3 # 10) (150 # 100) - Theta lone (fun _ => 0) true (-3 # 10) (2 # 10)) in *.
        set (v := Theta lone (fun _ => 0) false (-1 # 10) (50 # 100) - Theta lone (fun _ => 0) false (-1 # 10) (4 # 10)) in *.
        assert (X : 1 / 4 <= (u - v) / (2 * PI)).
        { apply Rmult_le_reg_r with (2 * PI); [lra|]. unfold Rdiv at 2. rewrite Rmult_assoc, Rinv_l by lra. lra. }
        lra. }
      assert (E2' : cached_moment (turn_line turns (zero_product lone) (1 / 100) (1 # 10000000000) n eprec fuel) debug 0 (rect_of second_x)
        (if ec_dirty (fst (c1, st')) then (ec_reset (fst (c1, st')), snd (c1, st')) else (c1, st')) = (s2, [], Ok m2)).
      { cbn [fst snd]. rewrite <- E2. destruct (ec_dirty c1); reflexivity. }
      destruct (low_search turns (zero_product lone) (1 / 100) (1 # 10000000000) n eprec fuel debug
        (fun _ _ => Err RuntimeError) (fun _ => Err RuntimeError) (fun _ => Err RuntimeError) false false second_x d info
        (c1, st') s2 m2 E2' M2) as [R3 _].
      exact R3.
  Qed.
End Loss.

Lemma second_search_loses turns eps n eprec fuel depth debug info iter :
  faithful turns eps -> eps <= 1 / 100 -> (1001 <= Z.of_nat n)%Z -> (100 * n + 3 <= fuel)%nat -> (9 < depth)%nat ->
  iteration_order iter ->
  let E := sum_env turns (zero_product lone) (1 / 100) (1 # 10000000000) n eprec fuel debug
    (fun _ _ => Err RuntimeError) (fun _ => Err RuntimeError) (fun _ => Err RuntimeError) false false in
  let search s reRan imRan c := calculateRoots demo_f None (0, 0)%Z (argument_algorithm E Simple depth info s) reRan imRan None c in
  let out1 := search new_estimator (0, 0)%Q (0, 0)%Q (rc_init None (3, 3)%Z) in
  let out2 := search (leaves E depth first_x new_estimator) (0, 13 # 10)%Q (0, 1 # 10)%Q (fst out1) in
  let alone := search new_estimator (0, 13 # 10)%Q (0, 1 # 10)%Q (rc_init None (3, 3)%Z) in
  (snd out1 = Ok tt /\ snd out2 = Ok tt /\ reported_pairs iter (fst out2) = []) /\
  snd alone = Ok tt /\ exists c, In (c, 1%Z) (reported_pairs iter (fst alone)) /\ within 1 P11 c (IZR 52 / 60, IZR 4 / 60).
Proof.
  intros HT He Hn Hf Hd HI E search out1 out2 alone.
  destruct (two_searches turns eps n eprec fuel depth debug info HT He Hn Hf Hd) as [A1 A2].
  assert (O1 : out1 = (rc_init None (3, 3)%Z, Ok tt)) by (apply (empty_search _ _ _ _ _ _ _ iter _ HI); exact A1).
  assert (O2 : out2 = (rc_init None (3, 3)%Z, Ok tt)).
  { unfold out2, search. rewrite O1. cbn [fst]. apply (empty_search _ _ _ _ _ _ _ iter _ HI); exact A2. }
  split.
  - rewrite O1, O2. split; [reflexivity|]. split; [reflexivity|]. cbn [fst].
    unfold reported_pairs. assert (rc_getRoots iter (rc_init None (3, 3)%Z) = []) as ->; [|reflexivity].
    unfold rc_getRoots, rc_init. cbn. assert (N : iter [] = []).
    { apply Permutation_nil. symmetry. apply HI. }
    rewrite N. reflexivity.
  - destruct (C70_complete_lemma (zero_product lone) lone turns eps (1 / 100) (1 # 10000000000) n eprec fuel debug
      (fun _ _ => Err RuntimeError) (fun _ => Err RuntimeError) (fun _ => Err RuntimeError) false false
      ltac:(lra) ltac:(clear - Hn; lia) Hf HT depth info demo_f None (0, 0)%Z (0, 13 # 10)%Q (0, 1 # 10)%Q None
      None (3, 3)%Z iter 5 4 HI (lone_resolved n eps Hn He) (lone_dense n Hn)) as (B1 & B2 & B3 & B4 & B5).
    + vm_compute. reflexivity.
    + vm_compute. reflexivity.
    + clear - Hd. lia.
    + split; [exact B1|]. fold E in B2, B3, B5.
      assert (SEP : forall t P, separated t P lone).
      { intros t P z1 z2 H1 H2 _ _. destruct H1 as [<-|[]], H2 as [<-|[]]. reflexivity. }
      destruct (B5 (SEP _ _) (IZR 52 / 60, IZR 4 / 60) (or_introl eq_refl)) as (c & k & F1 & F2 & F3 & F4).
      { unfold requested. cbn [fst snd]. change (Qmin 0 (13 # 10)) with 0%Q. change (Qmax 0 (13 # 10)) with (13 # 10)%Q.
        change (Qmin 0 (1 # 10)) with 0%Q. change (Qmax 0 (1 # 10)) with (1 # 10)%Q. unfold Q2R. cbn. lra. }
      assert (K : k = 1%Z).
      { rewrite (F3 point_dec). cbn [lone count_occ].
        destruct (point_dec (IZR 52 / 60, IZR 4 / 60) (IZR 52 / 60, IZR 4 / 60)) as [_|N]; [reflexivity|congruence]. }
      subst k. exists c. split; [exact F1|exact F2].
Qed.

(** ** A search after another one on other levels *)
Definition other_x : rctx := serial_context demo_f None (0, 0)%Z (1 # 3, 13 # 30)%Q (1 # 3, 13 # 30)%Q None.
Lemma other_placed : placed (1 # 3, 1 # 3)%Q (rect_of other_x).
Proof. exists (-2)%Z, (-6)%Z, 8%Z, 16%Z. split; [cbn; tauto|]. vm_compute. repeat split. Qed.

Lemma shifted_levels a b : ~ ((1 # 3) + tw a == 0 + tw b)%Q.
Proof.
  unfold tw. intro H. assert (X : ((20 # 3) == inject_Z (b - a))%Q).
  { unfold Z.sub. rewrite inject_Z_plus, inject_Z_opp. 
    assert (Y : (20 * ((1 # 3) + inject_Z a / 20) == 20 * (0 + inject_Z b / 20))%Q) by (rewrite H; reflexivity).
    setoid_replace (20 * ((1 # 3) + inject_Z a / 20))%Q with ((20 # 3) + inject_Z a)%Q in Y by field.
    setoid_replace (20 * (0 + inject_Z b / 20))%Q with (inject_Z b) in Y by field.
    rewrite <- Y. ring. }
  unfold Qeq, inject_Z in X. cbn [Qnum Qden] in X. lia.
Qed.

Lemma other_apart : no_common_level P11 (rect_of other_x) P11 (rect_of small_x).
Proof.
  intros q q' Hq Hq'.
  apply (placed_cells _ _ _ other_placed) in Hq. apply (placed_cells _ _ _ small_placed) in Hq'.
  destruct Hq as (a & c & w & h & _ & A1 & A2 & A3 & A4). destruct Hq' as (a' & c' & w' & h' & _ & B1 & B2 & B3 & B4).
  cbn [fst snd] in *. rewrite A1, A2, A3, A4, B1, B2, B3, B4.
  repeat match goal with |- _ /\ _ => split end; apply shifted_levels.
Qed.

Lemma other_then_small n (depth : nat) : (2001 <= Z.of_nat n)%Z ->
  (forall x d, In (x, d) [(other_x, depth)] ->
     no_common_level (cx_precision x) (rect_of x) (search_precision (0, 0)%Z None) (rect_of small_x)) /\
  resolved (zero_product twin) twin n (1 / 2000) P11 (rect_of small_x) /\ dense n P11 (rect_of small_x).
Proof.
  intro H. split; [|split; [exact (twin_resolved n H)|exact (twin_dense n H)]].
  intros x d [X|[]]. injection X as <- _. exact other_apart.
Qed.
