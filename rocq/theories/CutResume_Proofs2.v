(** Example: a search that is interrupted, and the same search made again, which loses the zero. *)
From Coq Require Import Reals Qreals Qminmax.
From Verif Require Import PyBase Rounding_Model Rounding_Proofs Poly_Model Container_Model Container_Spec Finder_Model Finder_Spec
  Refine_Model Refine_Spec Refine_Proofs Zeros_Spec Zeros_Proofs Cache_Model Cache_Spec Cache_Proofs
  Sum_Model Sum_Spec Angle_Proofs Sum_Proofs Sum_Proofs2 Sum_Proofs3 Sum_Proofs4 Sum_Proofs5 Sum_Proofs6
  Arg_Spec Arg_Proofs Arg_Proofs2 Arg_Proofs3 Arg_Proofs4 Arg_Examples
  EndToEnd_Model EndToEnd_Spec EndToEnd_Examples Whole_Model Whole_Spec Whole_Entry Whole_Proofs Whole_Proofs3 Whole_Examples Whole_Stale
  Whole_Examples2 CutSearch_Model CutResume_Proofs.
From Coq Require Import Lqa Lra.
Open Scope R_scope.

(** A simple zero at (67 + i) / 60. *)
Definition single : list point := [(IZR 67 / 60, IZR 1 / 60)].

Lemma single_sampled n u : (2001 <= Z.of_nat n)%Z -> u <= 16 / 10 ->
  u / INR (n - 1) * (0 + INR (List.length single) / (1 / 60)) <= 1 / 20.
Proof.
  intros Hn Hu.
  assert (N : 2000 <= INR (n - 1)). { rewrite INR_IZR_INZ. apply IZR_le. lia. }
  replace (INR (List.length single)) with 1 by (cbn; lra).
  replace (u / INR (n - 1) * (0 + 1 / (1 / 60))) with ((60 * u) / INR (n - 1)) by (field; lra).
  apply Rmult_le_reg_r with (INR (n - 1)); [lra|]. unfold Rdiv. rewrite Rmult_assoc, Rinv_l by lra. lra.
Qed.

Lemma single_cells n q : (2001 <= Z.of_nat n)%Z -> placed (0, 0)%Q q -> well_sampled n (1 / 20) 0 single q.
Proof.
  intros Hn HP. exists (1 / 60). split; [lra|]. split.
  - intros w [<-|[]]. apply placed_distance; [discriminate|discriminate|exact HP].
  - destruct (placed_size _ q HP) as [A B]. split; apply single_sampled; try exact Hn; lra.
Qed.

Notation whole := (mkRect (-1 # 10) (150 # 100) (-3 # 10) (50 # 100)) (only parsing).
Notation middle := (((-1 # 10) + (150 # 100)) / 2)%Q (only parsing).

Lemma single_half n : (2001 <= Z.of_nat n)%Z -> well_sampled n (1 / 20) 0 single (mkRect (-1 # 10) middle (-3 # 10) (50 # 100)).
Proof.
  intros Hn. exists (1 / 60). split; [lra|]. split.
  - intros w [<-|[]]. apply (grid_distance _ (-2) 14 (-6) 10); try discriminate; vm_compute; reflexivity.
  - cbn [x1 x2 y1 y2].
    assert (A : (middle - (-1 # 10) == 8 # 10)%Q) by (vm_compute; reflexivity).
    assert (B : ((50 # 100) - (-3 # 10) == 8 # 10)%Q) by (vm_compute; reflexivity).
    rewrite (Qeq_eqR _ _ A), (Qeq_eqR _ _ B).
    split; apply single_sampled; try exact Hn; unfold Q2R; cbn; lra.
Qed.

Lemma single_resolved n eps : (2001 <= Z.of_nat n)%Z -> eps <= 1 / 200 ->
  resolved (zero_product single) single n eps P11 (rect_of second_x).
Proof.
  intros Hn He. exists 0, (1 / 20). split; [apply polynomial_factorised|]. split.
  - intros q Hq. apply single_cells; [exact Hn|]. exact (placed_cells _ _ _ second_placed Hq).
  - assert (P3 := PI_3).
    assert (4 * (1 / 20) / PI <= 4 / 60).
    { apply Rmult_le_reg_r with PI; [lra|]. unfold Rdiv. rewrite Rmult_assoc, Rinv_l by lra. lra. }
    lra.
Qed.

(** The angle under which the zero sees the right half of the bottom side. *)
Lemma lost_half : PI / 2 <=
  Theta single (fun _ => 0) true (-3 # 10) (150 # 100) - Theta single (fun _ => 0) true (-3 # 10) middle.
Proof.
  unfold Theta, angs, single. cbn [fold_right along across fst snd].
  assert (E1 : Q2R (-3 # 10) = -3 / 10) by (unfold Q2R; cbn; lra).
  assert (E2 : Q2R (150 # 100) = 15 / 10) by (unfold Q2R; cbn; lra).
  assert (E3 : Q2R middle = 7 / 10) by (unfold Q2R; cbn; lra).
  rewrite E1, E2, E3.
  match goal with |- _ <= ?A + 0 + 0 - (?B + 0 + 0) => replace (A + 0 + 0 - (B + 0 + 0)) with (A - B) by ring end.
  rewrite ang_diff by (left; lra). unfold sg, at0.
  destruct (Req_EM_T (-3 / 10 - 1 / 60) 0) as [C|_]; [lra|].
  replace ((15 / 10 - 67 / 60) / (-3 / 10 - 1 / 60)) with (- (23 / 19)) by lra.
  replace ((7 / 10 - 67 / 60) / (-3 / 10 - 1 / 60)) with (25 / 19) by lra.
  rewrite atan_opp.
  assert (A1 : atan 1 < atan (23 / 19)) by (apply atan_increasing; lra).
  assert (A2 : atan 1 < atan (25 / 19)) by (apply atan_increasing; lra).
  rewrite atan_1 in A1, A2. lra.
Qed.

Lemma single_counts : count single whole = 1%nat.
Proof.
  unfold count, single. cbn [filter]. unfold zinb. cbn [x1 x2 y1 y2 fst snd].
  replace (Q2R (-1 # 10)) with (-1 / 10) by (unfold Q2R; cbn; lra).
  replace (Q2R (-3 # 10)) with (-3 / 10) by (unfold Q2R; cbn; lra).
  replace (Q2R (150 # 100)) with (15 / 10) by (unfold Q2R; cbn; lra).
  replace (Q2R (50 # 100)) with (5 / 10) by (unfold Q2R; cbn; lra).
  repeat match goal with |- context [between_dec ?a ?b ?c] => destruct (between_dec a b c); try (exfalso; lra) end.
  reflexivity.
Qed.

(** A search of [second_x] that fails in its second cell. *)
Lemma failing_search {LS} (line : Z -> cplx -> cplx -> LS -> LS * list cplx * res cplx) debug secant newton polyroots has_df eprec
    depth s s1 s2 m e :
  let E := cached_env line debug secant newton polyroots has_df eprec false in
  ec_dirty (fst s) = false -> (TWO_PI <= re m)%Q ->
  cached_moment line debug 0 (rect_of second_x) s = (s1, [], Ok m) ->
  cached_moment line debug 0 (mkRect (-1 # 10) middle (-3 # 10) (50 # 100)) s1 = (s2, [], Err e) ->
  exists l, calcRoots (env_for E second_x) Simple (Datatypes.S depth) (rect_of second_x) s = (s2, l, Raised e) /\ roots_of l = [].
Proof.
  intros E H0 Hm H1 H2. unfold calcRoots.
  assert (X : (if e_dirty (env_for E second_x) s then e_reset (env_for E second_x) s else s) = s).
  { change (e_dirty (env_for E second_x) s) with (ec_dirty (fst s)). rewrite H0. reflexivity. }
  rewrite X. unfold mbind at 1, calcMoment at 1. cbn [e_est env_for E cached_env]. rewrite H1.
  cbn [decideRefinement]. unfold decide_simple. assert (Qltb (re m) TWO_PI = false) as -> by (apply Qltb_false; exact Hm).
  match goal with |- context [Qltb ?a ?b && ?c] => assert (Qltb a b && c = false) as -> by (vm_compute; reflexivity) end.
  match goal with |- context [if Qltb ?a ?b then _ else _] => assert (Qltb a b = true) as -> by (vm_compute; reflexivity) end.
  cbv zeta.
  match goal with |- context [mkRect ?a ?b ?c ?d] =>
    change (mkRect a b c d) with (mkRect (-1 # 10) middle (-3 # 10) (50 # 100)) end.
  unfold mbind at 1, calculateRefinedMoment at 1, mbind at 1, calcMoment at 1. cbn [e_est env_for E cached_env]. rewrite H2.
  eexists. split; [reflexivity|]. reflexivity.
Qed.

Section Loss.
  Variables (turns : R -> Q) (eps : R) (n : nat) (eprec : Z * Z) (fuel depth : nat) (debug : bool) (info : root -> bool)
    (iter : list root -> list root).
  Hypothesis turns_ok : faithful turns eps.
  Hypothesis eps_ok : eps <= 1 / 200.
  Hypothesis n_ok : (2001 <= Z.of_nat n)%Z.
  Hypothesis fuel_ok : (100 * n + 3 <= fuel)%nat.
  Hypothesis depth_ok : (9 < depth)%nat.
  Hypothesis iter_ok : iteration_order iter.
  Notation E := (sum_env turns (zero_product single) (1 / 100) (1 # 10000000000) n eprec fuel debug
    (fun _ _ => Err RuntimeError) (fun _ => Err RuntimeError) (fun _ => Err RuntimeError) false false).
  Notation E' := (cached_env (interrupted_line turns 0 (zero_product single) (1 / 100) (1 # 10000000000) n eprec fuel) debug
    (fun _ _ => Err RuntimeError) (fun _ => Err RuntimeError) (fun _ => Err RuntimeError) false eprec false).

  Lemma interrupted_then_again :
    argument_algorithm E' Simple depth info (new_cache, (5%nat, fresh_sum)) second_x = mkRun [] (Some KeyboardInterrupt) /\
    argument_algorithm E Simple depth info
      (leaves_interrupted turns 0 5 (zero_product single) (1 / 100) (1 # 10000000000) n eprec fuel debug
         (fun _ _ => Err RuntimeError) (fun _ => Err RuntimeError) (fun _ => Err RuntimeError) false false
         depth second_x new_estimator) second_x = mkRun [] None.
  Proof.
    destruct depth as [|d] eqn:Ed; [exfalso; clear - depth_ok; lia|].
    assert (P3 := PI_3). pose proof single_counts as K.
    destruct turns_ok as [T _].
    destruct (resume_pair (zero_product single) single 0 (fun _ => 1) (fun _ => 0) (-1 # 10) (150 # 100) (-3 # 10) (50 # 100))
      with (eta := 1 / 20) (turns := turns) (eps := eps) (delta := 1 / 100) (mp := (1 # 10000000000)%Q) (n := n) (prec := eprec)
           (fuel := fuel) (debug := debug) as (c4 & s4 & c5 & s5 & m & E1 & B1 & E2 & S2).
    all: try reflexivity; try lra; try assumption.
    - apply product_proper.
    - intros z _. split; [lra|]. rewrite cos_0, sin_0, Rmult_1_r, Rmult_0_r, cmulR_1. reflexivity.
    - intros. rewrite Rminus_eq_0, Rabs_R0. lra.
    - clear - n_ok. lia.
    - exact (single_cells n _ n_ok second_placed).
    - exact (single_half n n_ok).
    - rewrite K in B1. rewrite K in S2. change whole with (rect_of second_x) in E1, S2.
      assert (M1 : (TWO_PI <= re m)%Q).
      { apply Rle_Qle. replace (Q2R TWO_PI) with (8 / 10) by (unfold Q2R; cbn; lra). cbn [INR] in B1.
        unfold Rabs in B1. destruct (Rcase_abs (Q2R (re m) - 1)); lra. }
      destruct (failing_search (interrupted_line turns 0 (zero_product single) (1 / 100) (1 # 10000000000) n eprec fuel) debug
        (fun _ _ => Err RuntimeError) (fun _ => Err RuntimeError) (fun _ => Err RuntimeError) false eprec d
        (new_cache, (5%nat, fresh_sum)) _ _ m KeyboardInterrupt eq_refl M1 E1 E2) as (l & R1 & R2).
      split.
      { unfold argument_algorithm. rewrite R1, R2. reflexivity. }
      unfold leaves_interrupted. cbn [fst snd new_estimator]. rewrite R1.
      destruct (S2 (if ec_dirty c5 then ec_reset c5 else c5) (start_cache c5)) as (s2 & m2 & E3 & B2).
      assert (M2 : (re m2 < TWO_PI)%Q).
      { apply (below_Q _ _ _ B2). pose proof lost_half as LB. cbn [INR].
        set (u := Theta single (fun _ => 0) true (-3 # 10) (150 # 100) - Theta single (fun _ => 0) true (-3 # 10) middle) in *.
        assert (X : 1 / 4 <= u / (2 * PI)).
        { apply Rmult_le_reg_r with (2 * PI); [lra|]. unfold Rdiv at 2. rewrite Rmult_assoc, Rinv_l by lra. lra. }
        assert (Y : 2 * (1 / 20) / (2 * PI) <= 1 / 60).
        { apply Rmult_le_reg_r with (2 * PI); [lra|]. unfold Rdiv at 1. rewrite Rmult_assoc, Rinv_l by lra. lra. }
        lra. }
      assert (E3' : cached_moment (turn_line turns (zero_product single) (1 / 100) (1 # 10000000000) n eprec fuel) debug 0 (rect_of second_x)
        (if ec_dirty (fst (c5, s5)) then (ec_reset (fst (c5, s5)), snd (c5, s5)) else (c5, s5)) = (s2, [], Ok m2)).
      { cbn [fst snd]. rewrite <- E3. destruct (ec_dirty c5); reflexivity. }
      destruct (low_search turns (zero_product single) (1 / 100) (1 # 10000000000) n eprec fuel debug
        (fun _ _ => Err RuntimeError) (fun _ => Err RuntimeError) (fun _ => Err RuntimeError) false false second_x d info
        (c5, s5) s2 m2 E3' M2) as [R3 _].
      exact R3.
  Qed.
End Loss.

Lemma interrupted_search f df dflt reRan imRan prec c alg :
  alg (serial_context f df dflt reRan imRan prec) = mkRun [] (Some KeyboardInterrupt) ->
  calculateRoots f df dflt alg reRan imRan prec c = (c, Ok tt).
Proof. intro H. unfold calculateRoots. rewrite H. reflexivity. Qed.

Lemma resumed_search_loses turns eps n eprec fuel depth debug info iter :
  faithful turns eps -> eps <= 1 / 200 -> (2001 <= Z.of_nat n)%Z -> (100 * n + 3 <= fuel)%nat -> (9 < depth)%nat ->
  iteration_order iter ->
  let line := interrupted_line turns 0 (zero_product single) (1 / 100) (1 # 10000000000) n eprec fuel in
  let E' := cached_env line debug
    (fun _ _ => Err RuntimeError) (fun _ => Err RuntimeError) (fun _ => Err RuntimeError) false eprec false in
  let E := sum_env turns (zero_product single) (1 / 100) (1 # 10000000000) n eprec fuel debug
    (fun _ _ => Err RuntimeError) (fun _ => Err RuntimeError) (fun _ => Err RuntimeError) false false in
  let left := leaves_interrupted turns 0 5 (zero_product single) (1 / 100) (1 # 10000000000) n eprec fuel debug
    (fun _ _ => Err RuntimeError) (fun _ => Err RuntimeError) (fun _ => Err RuntimeError) false false
    depth second_x new_estimator in
  let search alg c := calculateRoots demo_f None (0, 0)%Z alg (0, 13 # 10)%Q (0, 1 # 10)%Q None c in
  let cut := argument_algorithm E' Simple depth info (new_cache, (5%nat, fresh_sum)) in
  let out1 := search cut (rc_init None (3, 3)%Z) in
  let out2 := search (argument_algorithm E Simple depth info left) (fst out1) in
  let alone := search (argument_algorithm E Simple depth info new_estimator) (rc_init None (3, 3)%Z) in
  (ar_end (cut second_x) = Some KeyboardInterrupt /\ snd out1 = Ok tt) /\
  (snd out2 = Ok tt /\ reported_pairs iter (fst out2) = []) /\
  snd alone = Ok tt /\ exists c, In (c, 1%Z) (reported_pairs iter (fst alone)) /\ within 1 P11 c (IZR 67 / 60, IZR 1 / 60).
Proof.
  intros HT He Hn Hf Hd HI line E' E left search cut out1 out2 alone.
  destruct (interrupted_then_again turns eps n eprec fuel depth debug info HT He Hn Hf Hd) as [A1 A2].
  assert (O1 : out1 = (rc_init None (3, 3)%Z, Ok tt)) by (apply interrupted_search; exact A1).
  assert (O2 : out2 = (rc_init None (3, 3)%Z, Ok tt)).
  { unfold out2, search. rewrite O1. cbn [fst]. apply (empty_search _ _ _ _ _ _ _ iter _ HI); exact A2. }
  split; [split; [unfold cut, E', line; rewrite A1; reflexivity|rewrite O1; reflexivity]|]. split.
  - rewrite O2. split; [reflexivity|]. cbn [fst].
    unfold reported_pairs. assert (rc_getRoots iter (rc_init None (3, 3)%Z) = []) as ->; [|reflexivity].
    unfold rc_getRoots, rc_init. cbn. assert (N : iter [] = []).
    { apply Permutation_nil. symmetry. apply HI. }
    rewrite N. reflexivity.
  - destruct (C70_complete_lemma (zero_product single) single turns eps (1 / 100) (1 # 10000000000) n eprec fuel debug
      (fun _ _ => Err RuntimeError) (fun _ => Err RuntimeError) (fun _ => Err RuntimeError) false false
      ltac:(lra) ltac:(clear - Hn; lia) Hf HT depth info demo_f None (0, 0)%Z (0, 13 # 10)%Q (0, 1 # 10)%Q None
      None (3, 3)%Z iter 5 4 HI (single_resolved n eps Hn He) (lone_dense n ltac:(clear - Hn; lia))) as (B1 & B2 & B3 & B4 & B5).
    + vm_compute. reflexivity.
    + vm_compute. reflexivity.
    + clear - Hd. lia.
    + split; [exact B1|]. fold E in B2, B3, B5.
      assert (SEP : forall t P, separated t P single).
      { intros t P z1 z2 H1 H2 _ _. destruct H1 as [<-|[]], H2 as [<-|[]]. reflexivity. }
      destruct (B5 (SEP _ _) (IZR 67 / 60, IZR 1 / 60) (or_introl eq_refl)) as (c & k & F1 & F2 & F3 & F4).
      { unfold requested. cbn [fst snd]. change (Qmin 0 (13 # 10)) with 0%Q. change (Qmax 0 (13 # 10)) with (13 # 10)%Q.
        change (Qmin 0 (1 # 10)) with 0%Q. change (Qmax 0 (1 # 10)) with (1 # 10)%Q. unfold Q2R. cbn. lra. }
      assert (K : k = 1%Z).
      { rewrite (F3 point_dec). cbn [single count_occ].
        destruct (point_dec (IZR 67 / 60, IZR 1 / 60) (IZR 67 / 60, IZR 1 / 60)) as [_|N]; [reflexivity|congruence]. }
      subst k. exists c. split; [exact F1|exact F2].
Qed.
