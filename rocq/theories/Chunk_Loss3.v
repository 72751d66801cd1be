(** The zero above is lost. *)
From Coq Require Import Reals Qreals Qminmax.
From Verif Require Import PyBase Rounding_Model Rounding_Proofs Poly_Model Container_Model Container_Spec Finder_Model Finder_Spec Finder_Proofs
  Refine_Model Refine_Spec Refine_Proofs Zeros_Spec Zeros_Proofs Cache_Model Cache_Spec Cache_Proofs
  Sum_Model Sum_Spec Angle_Proofs Sum_Proofs Sum_Proofs2 Sum_Proofs3 Sum_Proofs4 Sum_Proofs5 Sum_Proofs6
  Arg_Spec Arg_Proofs Arg_Proofs2 Arg_Proofs3 Arg_Proofs4 Arg_Examples
  EndToEnd_Model EndToEnd_Spec EndToEnd_Proofs EndToEnd_Proofs2 EndToEnd_Proofs3 EndToEnd_Examples Whole_Model Whole_Spec Whole_Grid Whole_Entry Whole_Inv Whole_Search Whole_Proofs Whole_Proofs2
  Whole_Proofs3 Whole_Examples Whole_Stale Whole_Examples2
  Chunk_Model Chunk_Spec Chunk_Proofs Chunk_Frame Chunk_Proofs2 Chunk_Cut Chunk_Cut2 Chunk_Cut3 Chunk_Loss Chunk_Loss2.
From Coq Require Import Lqa Lra.
Open Scope R_scope.

Lemma cells_inside P r q : (x1 r < x2 r)%Q -> (y1 r < y2 r)%Q -> cell_of P r q -> (x1 q < x2 q)%Q /\ (y1 q < y2 q)%Q /\ inside r q.
Proof.
  intros W1 W2. induction 1 as [|q _ (V1 & V2 & I1 & I2 & I3 & I4)|q _ (V1 & V2 & I1 & I2 & I3 & I4)|q _ (V1 & V2 & I1 & I2 & I3 & I4)|q _ (V1 & V2 & I1 & I2 & I3 & I4)].
  1: { split; [exact W1|]. split; [exact W2|]. apply refl_inside. }
  all: destruct (mid_between _ _ V1) as [M1 M2]; destruct (mid_between _ _ V2) as [M3 M4];
    cbn [x1 x2 y1 y2]; split; [Lqa.lra|]; split; [Lqa.lra|]; repeat split; cbn [x1 x2 y1 y2]; Lqa.lra.
Qed.

Lemma Theta_Q a a' b b' : (a == a')%Q -> (b == b')%Q -> Theta two_zeros (fun _ => 0) true a b = Theta two_zeros (fun _ => 0) true a' b'.
Proof. intros H1 H2. unfold Theta. rewrite (Qeq_eqR _ _ H1), (Qeq_eqR _ _ H2). reflexivity. Qed.

Section Loss.
  Variables (turns : R -> Q) (eps delta : R) (mp : Q) (n : nat) (eprec : Z * Z) (fuel depth : nat) (debug : bool)
    (secant : cplx -> cplx -> res cplx) (newton : cplx -> res cplx)
    (polyroots : list cplx -> res (list cplx)) (has_df progress : bool)
    (p : option (Z * Z)) (sp : Z * Z) (iter : list root -> list root).
  Hypothesis turns_ok : faithful turns eps.
  Hypothesis eps_ok : eps <= 1 / 1000.
  Hypothesis delta_pos : 0 < delta.
  Hypothesis n_ok : (6001 <= Z.of_nat n)%Z.
  Hypothesis fuel_ok : (100 * n + 3 <= fuel)%nat.
  Hypothesis depth_ok : (13 < depth)%nat.
  Hypothesis iter_ok : iteration_order iter.
  Notation g := (zero_product two_zeros).
  Notation E := (sum_env turns g delta mp n eprec fuel debug secant newton polyroots has_df progress).
  Notation jobs := (createRootJobs 2 wide_x).
  Notation P := (1, 1)%Z.

  Lemma n2 : (2 <= n)%nat. Proof. clear - n_ok. lia. Qed.
  Lemma n3 : (3 <= n)%nat. Proof. clear - n_ok. lia. Qed.
  Lemma eta_bound b : b <= 128 / 1000 -> 4 * b / PI + 4 * eps <= 1 / 5.
  Proof.
    intro Hb. assert (P3 := PI_3).
    assert (4 * b / PI <= 4 * (128 / 1000) / 3).
    { apply Rmult_le_reg_r with PI; [lra|]. unfold Rdiv at 1. rewrite Rmult_assoc, Rinv_l by lra. lra. }
    lra.
  Qed.
  Lemma one_factor z : 0 < 1 /\ g z = cmulR (g z) (1 * cos 0, 1 * sin 0).
  Proof. split; [lra|]. rewrite cos_0, sin_0, Rmult_1_r, Rmult_0_r, cmulR_1. reflexivity. Qed.
  Lemma no_angle (z z' : cplx) : Rabs (0 - 0) <= 0 * (Rabs (Q2R (re z' - re z)) + Rabs (Q2R (im z' - im z))).
  Proof. rewrite Rminus_eq_0, Rabs_R0. lra. Qed.
  Lemma pieces_sampled job q : In job jobs -> cell_of P (rect_of job) q -> well_sampled n (64 / 1000) 0 two_zeros q.
  Proof.
    intros Hj Hq. destruct (wide_jobs job Hj) as (i & j & Hi & Hj' & ->).
    apply (two_sampled n piece_shapes 64 (64 / 1000) q n_ok ltac:(lia) piece_size ltac:(lra)).
    exact (grid_cells _ _ _ piece_halving (job_on_grid i j Hi Hj') Hq).
  Qed.
  Lemma pieces_resolved : resolved_pieces g two_zeros n eps P (rect_of wide_x) jobs.
  Proof.
    exists 0, (64 / 1000). split; [apply polynomial_factorised|]. split; [exact pieces_sampled|]. apply eta_bound. lra.
  Qed.
  Lemma whole_resolved : resolved g two_zeros n eps P (rect_of wide_x).
  Proof.
    exists 0, (128 / 1000). split; [apply polynomial_factorised|]. split; [|apply eta_bound; lra].
    intros q Hq. apply (two_sampled n all_shapes 128 (128 / 1000) q n_ok ltac:(lia) all_size ltac:(lra)).
    exact (grid_cells _ _ _ all_halving wide_on_grid Hq).
  Qed.
  Lemma dense_any r h : (y2 r - y1 r == h)%Q -> (h <= 32 # 10)%Q -> dense n P r.
  Proof.
    intros Eh Hh. unfold dense. rewrite Eh. change (- snd P)%Z with (-1)%Z. rewrite pow10_m1.
    assert (N : (inject_Z 6000 <= inject_Z (Z.of_nat (n - 1)))%Q) by (rewrite <- Zle_Qle; clear - n_ok; lia).
    change (inject_Z 6000) with (6000 # 1)%Q in N. Lqa.lra.
  Qed.
  Lemma wide_dense : dense n P (rect_of wide_x).
  Proof. apply (dense_any _ (32 # 10)); [vm_compute; reflexivity|apply Qle_refl]. Qed.
  Lemma pieces_dense job : In job jobs -> dense n P (rect_of job).
  Proof.
    intro Hj. destruct (wide_jobs job Hj) as (i & j & Hi & Hj' & ->). destruct (job_corners i j Hi Hj') as (_ & _ & C & D).
    apply (dense_any _ (16 # 10)); [|apply Qle_bool_iff; reflexivity]. rewrite C, D. unfold tw.
    rewrite !inject_Z_plus. change (inject_Z 32) with 32%Q. field.
  Qed.

  Lemma jobs_wide i j : (i < 2)%nat -> (j < 2)%nat -> let r := rect_of (job i j) in (x1 r < x2 r /\ y1 r < y2 r)%Q.
  Proof.
    intros Hi Hj. destruct i as [|[|i]]; [| |exfalso; clear - Hi; lia]; (destruct j as [|[|j]]; [| |exfalso; clear - Hj; lia]); vm_compute; split; reflexivity.
  Qed.
  Lemma swap_job i j s : (i < 2)%nat -> (j < 2)%nat -> (i, j) <> (0, 1)%nat ->
    worker_output (repaired two_zeros E) Simple depth s (job i j) = worker_output (repaired [low_zero] E) Simple depth s (job i j).
  Proof.
    intros Hi Hj N. destruct (jobs_wide i j Hi Hj) as [W1 W2].
    apply output_swap; [apply Qlt_le_weak; exact W1|apply Qlt_le_weak; exact W2|].
    intros q Hq. exact (high_elsewhere i j q Hi Hj N Hq).
  Qed.
  Lemma jobs_here i j : (i < 2)%nat -> (j < 2)%nat -> In (job i j) jobs.
  Proof.
    intros Hi Hj. rewrite createRootJobs_cells. apply in_flat_map. exists i. split; [apply in_seq; clear - Hi; lia|].
    apply in_map. apply in_seq. clear - Hj. lia.
  Qed.
  Lemma low_reliable job : In job jobs -> reliable (repaired [low_zero] E) [low_zero] P (rect_of job).
  Proof.
    intro Hj. apply repaired_reliable. intros q Hq z Hz. apply (sampled_avoids _ _ _ _ _ (pieces_sampled job q Hj Hq)).
    destruct Hz as [<-|[]]. left. reflexivity.
  Qed.
  Lemma low_result st e info : pool_behaviour (map (fun job => worker_output (repaired [low_zero] E) Simple depth (st job) job) jobs) e ->
    (forall x', e <> PoolRaised x') /\
    let out := parallel_calculateRoots demo_f (0, 0)%Z (0, 61 # 10)%Q (0, 5 # 2)%Q None info e (rc_init p sp) in
    snd out = Ok tt /\ all_genuine (11 / 20) (0, 0)%Z P [low_zero] (0, 61 # 10)%Q (0, 5 # 2)%Q (reported_pairs iter (fst out)).
  Proof.
    intro HB. destruct (C63_parallel_lemma (repaired [low_zero] E) [low_zero] depth 2 st demo_f None (0, 0)%Z (0, 61 # 10)%Q (0, 5 # 2)%Q None p sp iter 7 6
      ltac:(lia) iter_ok) with (e := e) (info := info) as (A & B & C & _).
    - vm_compute. reflexivity.
    - vm_compute. reflexivity.
    - clear - depth_ok. lia.
    - exact low_reliable.
    - exact HB.
    - split; [exact A|]. split; [exact B|exact C].
  Qed.
  Lemma low_quiet s job : In job jobs -> snd (worker_output (repaired [low_zero] E) Simple depth s job) = None.
  Proof.
    intro Hj. destruct (snd (worker_output (repaired [low_zero] E) Simple depth s job)) as [x'|] eqn:X; [|reflexivity]. exfalso.
    destruct (low_result (fun _ => s) (PoolRaised x') false) as [N _]; [|exact (N x' eq_refl)].
    exists (worker_output (repaired [low_zero] E) Simple depth s job). split; [|exact X].
    exact (in_map (fun job => worker_output (repaired [low_zero] E) Simple depth s job) jobs job Hj).
  Qed.

  Notation agree job s := (job_agree g two_zeros turns eps delta mp n eprec fuel debug secant newton polyroots has_df progress
    delta_pos n2 fuel_ok turns_ok 2 depth demo_f None (0, 0)%Z (0, 61 # 10)%Q (0, 5 # 2)%Q None ltac:(lia) Simple ltac:(discriminate)
    0 (64 / 1000) (fun _ => 1) (fun _ => 0) (product_proper two_zeros) (Rle_refl 0) (fun z _ => one_factor z) (fun z z' _ _ => no_angle z z')
    pieces_sampled (eta_bound (64 / 1000) ltac:(lra)) job s).
  Notation output job s := (job_output g two_zeros turns eps delta mp n eprec fuel debug secant newton polyroots has_df progress
    delta_pos n2 fuel_ok turns_ok 2 depth demo_f None (0, 0)%Z (0, 61 # 10)%Q (0, 5 # 2)%Q None ltac:(lia) Simple ltac:(discriminate)
    0 (64 / 1000) (fun _ => 1) (fun _ => 0) (product_proper two_zeros) (Rle_refl 0) (fun z _ => one_factor z) (fun z z' _ _ => no_angle z z')
    pieces_sampled (eta_bound (64 / 1000) ltac:(lra)) job s).
  Notation keeps st i := (column_keeps g two_zeros turns eps delta mp n eprec fuel debug secant newton polyroots has_df progress
    delta_pos n2 fuel_ok turns_ok 2 depth demo_f None (0, 0)%Z (0, 61 # 10)%Q (0, 5 # 2)%Q None ltac:(lia) Simple ltac:(discriminate)
    0 (64 / 1000) (fun _ => 1) (fun _ => 0) (product_proper two_zeros) (Rle_refl 0) (fun z _ => one_factor z) (fun z z' _ _ => no_angle z z')
    pieces_sampled (eta_bound (64 / 1000) ltac:(lra)) st i).

  (** A job that finds harmless entries only, and not the upper left one, works as if there were
      only the lower zero. *)
  Lemma harmless i j s : (i < 2)%nat -> (j < 2)%nat -> (i, j) <> (0, 1)%nat ->
    lower g two_zeros (64 / 1000) (fun _ => 0) n (rect_of (job i j)) (y1 (rect_of (job i j))) (snd s) ->
    worker_output E Simple depth s (job i j) = worker_output (repaired [low_zero] E) Simple depth s (job i j).
  Proof.
    intros Hi Hj N HK. rewrite <- swap_job by assumption.
    destruct (output (job i j) s (jobs_here i j Hi Hj) HK) as [[_ C]|H]; [|exact H].
    exfalso. exact (C (pieces_dense _ (jobs_here i j Hi Hj))).
  Qed.

  (** What the lower left job leaves. *)
  Lemma left_behind : cut g two_zeros (64 / 1000) (fun _ => 0) n (job 0 0) (snd (job_leaves E Simple depth (job 0 0) new_estimator)).
  Proof.
    assert (P3 := PI_3). unfold job_leaves.
    pose proof (jobs_here 0 0 ltac:(lia) ltac:(lia)) as J0.
    destruct (agree (job 0 0) new_estimator J0 (fresh_lower _ _ _ _ _ _ _)) as [(s' & l & H1 & _)|H1].
    { exfalso. assert (X : snd (worker_output E Simple depth new_estimator (job 0 0)) = Some IndexError)
        by (unfold worker_output, argument_algorithm; rewrite H1; reflexivity).
      rewrite (harmless 0 0 new_estimator ltac:(lia) ltac:(lia) ltac:(congruence) (fresh_lower _ _ _ _ _ _ _)) in X.
      rewrite (low_quiet new_estimator (job 0 0) J0) in X. discriminate X. }
    rewrite H1.
    apply (run_cut g two_zeros 0 (64 / 1000) (fun _ => 1) (fun _ => 0) (product_proper two_zeros) (Rle_refl 0) ltac:(lra)
      turns delta mp n eprec fuel debug secant newton polyroots has_df progress delta_pos n3 fuel_ok (job 0 0)
      (jobs_wide 0 0 ltac:(lia) ltac:(lia)) (fun z _ => one_factor z) (fun z z' _ _ => no_angle z z')).
    - intros q Hq. exact (pieces_sampled _ q J0 Hq).
    - intros [H _]. revert H. apply Qle_not_lt. apply Qle_bool_iff. vm_compute. reflexivity.
    - vm_compute. reflexivity.
    - rewrite low_count. discriminate.
    - exact left_count.
    - clear - depth_ok. lia.
  Qed.

  (** The upper left job misses its zero. *)
  Lemma upper_lost : worker_output E Simple depth (job_leaves E Simple depth (job 0 0) new_estimator) (job 0 1) = ([], None).
  Proof.
    assert (P3 := PI_3). pose proof left_behind as CUT. set (s := job_leaves E Simple depth (job 0 0) new_estimator) in *. destruct s as [c st].
    cbn [snd] in CUT.
    destruct (above_moment g two_zeros 0 (64 / 1000) (fun _ => 1) (fun _ => 0) (product_proper two_zeros) (Rle_refl 0) ltac:(lra)
      turns eps delta mp n eprec fuel debug delta_pos n3 fuel_ok (proj1 turns_ok) (job 0 0) (job 0 1) eq_refl eq_refl eq_refl
      (jobs_wide 0 1 ltac:(lia) ltac:(lia)) (fun z _ => one_factor z) (fun z z' _ _ => no_angle z z')
      (pieces_sampled _ _ (jobs_here 0 1 ltac:(lia) ltac:(lia)) (cell_whole _ _)) _ _ (start_cache c) CUT) as (s2 & m2 & E2 & B2).
    assert (M2 : (re m2 < TWO_PI)%Q).
    { apply (below_Q _ _ _ B2). rewrite high_count.
      pose proof lost_angle as LB.
      assert (Y : (y1 (rect_of (job 0 1)) == 13 # 10)%Q) by (vm_compute; reflexivity).
      assert (X2 : (x2 (rect_of (job 0 1)) == 31 # 10)%Q) by (vm_compute; reflexivity).
      assert (XB : ((x1 (rect_of (job 0 0)) + x2 (rect_of (job 0 0))) / 2 == 15 # 10)%Q) by (vm_compute; reflexivity).
      rewrite (Theta_Q _ _ _ _ Y X2), (Theta_Q _ _ _ _ Y XB).
      set (u := Theta two_zeros (fun _ => 0) true (13 # 10) (31 # 10)) in *. set (w := Theta two_zeros (fun _ => 0) true (13 # 10) (15 # 10)) in *.
      assert (X : 1 / 3 - 1 / 60 <= (u - w) / (2 * PI)).
      { apply Rmult_le_reg_r with (2 * PI); [lra|]. unfold Rdiv at 3. rewrite Rmult_assoc, Rinv_l by lra. lra. }
      assert (4 * (64 / 1000) / PI <= 4 * (64 / 1000) / 3).
      { apply Rmult_le_reg_r with PI; [lra|]. unfold Rdiv at 1. rewrite Rmult_assoc, Rinv_l by lra. lra. }
      cbn [INR]. lra. }
    assert (E2' : cached_moment (turn_line turns g delta mp n eprec fuel) debug 0 (rect_of (job 0 1))
      (if ec_dirty (fst (c, st)) then (ec_reset (fst (c, st)), snd (c, st)) else (c, st)) = (s2, [], Ok m2)).
    { cbn [fst snd]. rewrite <- E2. destruct (ec_dirty c); reflexivity. }
    destruct depth as [|d] eqn:Ed; [exfalso; clear - depth_ok; lia|].
    destruct (low_search turns g delta mp n eprec fuel debug secant newton polyroots has_df progress (job 0 1) d (fun _ => false)
      (c, st) s2 m2 E2' M2) as [R3 _].
    unfold worker_output. rewrite R3. reflexivity.
  Qed.

  (** The whole pool works as if there were only the lower zero. *)
  Lemma whole_pool e : pool_behaviour (pool_outputs E Simple depth new_estimator 2 wide_x) e ->
    exists st, pool_behaviour (map (fun job => worker_output (repaired [low_zero] E) Simple depth (st job) job) jobs) e.
  Proof.
    intro HB.
    destruct (pool_single E Simple depth new_estimator 2 wide_x e ltac:(lia) (rect_wide demo_f None (0, 0)%Z (0, 61 # 10)%Q (0, 5 # 2)%Q None) HB) as (st & HS & HF).
    exists st. rewrite (get_tasks_jobs 2 wide_x ltac:(lia)) in HF.
    assert (F0 := HF _ (or_introl eq_refl)). assert (F1 := HF _ (or_intror (or_introl eq_refl))). clear HF.
    assert (O00 : st (job 0 0) = new_estimator) by (exact (proj1 F0)).
    assert (H00 : worker_output E Simple depth (st (job 0 0)) (job 0 0) = worker_output (repaired [low_zero] E) Simple depth (st (job 0 0)) (job 0 0)).
    { rewrite O00. apply (harmless 0 0); [lia|lia|congruence|]. apply fresh_lower. }
    assert (NR : raised E Simple depth new_estimator (job 0 0) = false).
    { unfold raised. rewrite <- O00, H00, low_quiet by (apply jobs_here; lia). reflexivity. }
    assert (O01 : st (job 0 1) = job_leaves E Simple depth (job 0 0) new_estimator).
    { destruct F0 as [_ F0]. rewrite NR in F0. exact (proj1 F0). }
    assert (H01 : worker_output E Simple depth (st (job 0 1)) (job 0 1) = worker_output (repaired [low_zero] E) Simple depth (st (job 0 1)) (job 0 1)).
    { rewrite O01, upper_lost. symmetry. destruct depth as [|d] eqn:Ed; [exfalso; clear - depth_ok; lia|].
      apply empty_repaired. apply (low_elsewhere 0 1); [lia|lia|congruence|apply refl_inside]. }
    assert (H1 : forall j, (j < 2)%nat -> worker_output E Simple depth (st (job 1 j)) (job 1 j) = worker_output (repaired [low_zero] E) Simple depth (st (job 1 j)) (job 1 j)).
    { intros j Hj. apply (harmless 1 j); [lia|exact Hj|congruence|].
      apply (keeps st 1%nat ltac:(lia)).
      - intros k Hk q Hq _ _ _. destruct (jobs_wide 1 k ltac:(lia) ltac:(lia)) as [W1 W2].
        destruct (cells_inside _ _ _ W1 W2 Hq) as (_ & _ & HI).
        rewrite (high_elsewhere 1 k q ltac:(lia) ltac:(lia) ltac:(congruence) HI).
        exact (low_elsewhere 1 k q ltac:(lia) ltac:(lia) ltac:(congruence) HI).
      - exact F1.
      - apply in_map. apply in_seq. lia. }
    assert (Eo : map (fun job => worker_output E Simple depth (st job) job) jobs =
      map (fun job => worker_output (repaired [low_zero] E) Simple depth (st job) job) jobs).
    { apply map_ext_in. intros x Hx. destruct (wide_jobs x Hx) as (i & j & Hi & Hj & ->).
      destruct i as [|[|i]]; [| |exfalso; lia]; [destruct j as [|[|j]]; [| |exfalso; lia]|]; auto. }
    rewrite Eo in HS. exact HS.
  Qed.

  Lemma high_lost e info : pool_behaviour (pool_outputs E Simple depth new_estimator 2 wide_x) e ->
    (forall x', e <> PoolRaised x') /\
    let out := parallel_calculateRoots demo_f (0, 0)%Z (0, 61 # 10)%Q (0, 5 # 2)%Q None info e (rc_init p sp) in
    snd out = Ok tt /\ forall c k, In (c, k) (reported_pairs iter (fst out)) -> ~ within (11 / 20) (0, 0)%Z c high_zero.
  Proof.
    intro HB. destruct (whole_pool e HB) as (st & HS). destruct (low_result st e info HS) as (A & B & C).
    split; [exact A|]. split; [exact B|]. intros c k Hc [_ W2]. destruct (C c k Hc) as (_ & z & [<-|[]] & _ & [_ V2]).
    unfold high_zero, low_zero in *. cbn [fst snd] in *.
    assert (U : Q2R (pow10 (- 0)) = 1) by (unfold Q2R; cbn; lra). rewrite U in *.
    assert (Bd : forall u e, Rabs u <= e -> - e <= u <= e) by (intros u t Hu; unfold Rabs in Hu; destruct (Rcase_abs u); lra).
    apply Bd in W2, V2. lra.
  Qed.

  Lemma pool_ends : exists q, pool_behaviour (pool_outputs E Simple depth new_estimator 2 wide_x) (PoolDone q).
  Proof.
    assert (N : forall o, In o (pool_outputs E Simple depth new_estimator 2 wide_x) -> snd o = None).
    { intros o Ho. destruct (snd o) as [x'|] eqn:X; [|reflexivity]. exfalso.
      destruct (high_lost (PoolRaised x') false) as [H _]; [exists o; auto|]. exact (H x' eq_refl). }
    assert (IL : forall A (ls : list (list A)), exists q, interleaving ls q).
    { intros A ls. induction ls as [|l ls (q & IH)]; [exists []; apply il_done; intros l []|].
      induction l as [|a l (q' & IH')].
      - exists q. clear - IH. induction IH as [L H|ls1 x l ls2 q H IH].
        + apply il_done. intros l [<-|Hl]; [reflexivity|apply H; exact Hl].
        + apply (il_step ([] :: ls1)). exact IH.
      - exists (a :: q'). apply (il_step []). exact IH'. }
    destruct (IL _ (map fst (pool_outputs E Simple depth new_estimator 2 wide_x))) as (q & Hq). exists q. split; assumption.
  Qed.

  Lemma serial_finds info :
    let out := calculateRoots demo_f None (0, 0)%Z (argument_algorithm E Simple depth info new_estimator)
      (0, 61 # 10)%Q (0, 5 # 2)%Q None (rc_init p sp) in
    snd out = Ok tt /\ exists c k, In (c, k) (reported_pairs iter (fst out)) /\ (1 <= k)%Z /\ within 1 P c high_zero.
  Proof.
    destruct (C70_complete_lemma g two_zeros turns eps delta mp n eprec fuel debug secant newton polyroots has_df progress
      delta_pos n2 fuel_ok turns_ok depth info demo_f None (0, 0)%Z (0, 61 # 10)%Q (0, 5 # 2)%Q None
      p sp iter 7 6 iter_ok whole_resolved wide_dense) as (B1 & B2 & _).
    - vm_compute. reflexivity.
    - vm_compute. reflexivity.
    - clear - depth_ok. lia.
    - split; [exact B1|]. apply (B2 high_zero); [right; left; reflexivity|]. unfold requested, high_zero. cbn [fst snd].
      change (Qmin 0 (61 # 10)) with 0%Q. change (Qmax 0 (61 # 10)) with (61 # 10)%Q.
      change (Qmin 0 (5 # 2)) with 0%Q. change (Qmax 0 (5 # 2)) with (5 # 2)%Q. unfold Q2R. cbn. lra.
  Qed.
End Loss.
