(** A parallel search with two columns of two jobs whose common sides are never cut. *)
From Coq Require Import Reals Qreals Qminmax.
From Verif Require Import PyBase Rounding_Model Rounding_Proofs Poly_Model Container_Model Container_Spec Finder_Model Finder_Spec Finder_Proofs
  Refine_Model Refine_Spec Refine_Proofs Zeros_Spec Zeros_Proofs Cache_Model Cache_Spec Cache_Proofs
  Sum_Model Sum_Spec Arg_Spec Arg_Examples
  EndToEnd_Model EndToEnd_Spec EndToEnd_Proofs EndToEnd_Proofs2 EndToEnd_Examples Whole_Model Whole_Spec
  Whole_Examples Assist_Spec Chunk_Model Chunk_Spec Chunk_Proofs Chunk_Frame Chunk_Proofs2 Chunk_Loss Chunk_Loss2 Chunk_Loss3.
From Coq Require Import Lqa Lra.
Open Scope R_scope.

(** Simple zeros at (31 + 22 i) / 60 and (137 + 283 i) / 60. *)
Definition far_zeros : list point := [(IZR 31 / 60, IZR 22 / 60); (IZR 137 / 60, IZR 283 / 60)].
Definition tall_x : rctx := serial_context demo_f None (0, 0)%Z (0, 29 # 10)%Q (0, 57 # 10)%Q None.
Notation tile i j := (Finder_Proofs.cell 2 tall_x i j).
Definition tall_shapes : list (Z * Z) := (32, 64)%Z :: (32, 32)%Z :: shapes.

Lemma tall_halving : halving tall_shapes.
Proof.
  intros w h [H|[H|H]]; [injection H as <- <-|injection H as <- <-|destruct (shape_cases w h H) as [(A & B)|[(A & B)|A]]].
  - right; left. split; [cbn; tauto|]. split; [reflexivity|lia].
  - right; left. split; [cbn; tauto|]. split; [reflexivity|lia].
  - left. split; [right; right; exact A|exact B].
  - right; left. split; [right; right; exact A|exact B].
  - right; right. exact A.
Qed.
Lemma tall_size w h : In (w, h) tall_shapes -> (w <= 64 /\ h <= 64)%Z.
Proof.
  unfold tall_shapes, shapes. cbn [In]. intro H.
  repeat match goal with H : _ \/ _ |- _ => destruct H as [H|H]; [injection H as <- <-; lia|] end. contradiction.
Qed.

Lemma far_sampled n eta q : (6001 <= Z.of_nat n)%Z -> 64 / 1000 <= eta -> on_grid tall_shapes q -> well_sampled n eta 0 far_zeros q.
Proof.
  intros Hn He HP. exists (1 / 60). split; [lra|]. split.
  - destruct HP as (a & c & u & h & HS & (A & B & C & D)).
    intros w [<-|[<-|[]]]; apply (grid_distance q a (a + u) c (c + h)); try discriminate; assumption.
  - destruct (grid_size tall_shapes 64 q tall_size HP) as [A B].
    assert (N : 6000 <= INR (n - 1)). { rewrite INR_IZR_INZ. apply IZR_le. lia. }
    assert (X : forall u, u <= IZR 64 / 20 -> u / INR (n - 1) * (0 + INR (List.length far_zeros) / (1 / 60)) <= eta).
    { intros u Hu. replace (INR (List.length far_zeros)) with 2 by (cbn; lra).
      replace (u / INR (n - 1) * (0 + 2 / (1 / 60))) with ((120 * u) / INR (n - 1)) by (field; lra).
      apply Rmult_le_reg_r with (INR (n - 1)); [lra|]. unfold Rdiv. rewrite Rmult_assoc, Rinv_l by lra.
      assert (64 / 1000 * 6000 <= eta * INR (n - 1)) by (apply Rmult_le_compat; lra). lra. }
    split; apply X; lra.
Qed.

Lemma tile_corners i j : (i < 2)%nat -> (j < 2)%nat ->
  let r := rect_of (tile i j) in
  (x1 r == 0 + tw (-2 + 32 * Z.of_nat i) /\ x2 r == 0 + tw (-2 + 32 * Z.of_nat i + 32) /\
   y1 r == 0 + tw (-6 + 64 * Z.of_nat j) /\ y2 r == 0 + tw (-6 + 64 * Z.of_nat j + 64))%Q.
Proof.
  intros Hi Hj. destruct i as [|[|i]]; [| |exfalso; lia]; (destruct j as [|[|j]]; [| |exfalso; lia]); vm_compute; repeat split.
Qed.
Lemma tile_on_grid i j : (i < 2)%nat -> (j < 2)%nat -> on_grid tall_shapes (rect_of (tile i j)).
Proof.
  intros Hi Hj. exists (-2 + 32 * Z.of_nat i)%Z, (-6 + 64 * Z.of_nat j)%Z, 32%Z, 64%Z.
  split; [left; reflexivity|]. exact (tile_corners i j Hi Hj).
Qed.
Lemma tall_jobs x : In x (createRootJobs 2 tall_x) -> exists i j, (i < 2)%nat /\ (j < 2)%nat /\ x = tile i j.
Proof.
  intro H. apply (jobs_in 2 tall_x ltac:(lia)) in H. destruct H as (i & j & Hi & Hj & ->). exists i, j. auto.
Qed.

Lemma far_resolved n eps : (6001 <= Z.of_nat n)%Z -> eps <= 1 / 1000 ->
  resolved_pieces (zero_product far_zeros) far_zeros n eps (1, 1)%Z (rect_of tall_x) (createRootJobs 2 tall_x).
Proof.
  intros Hn He. exists 0, (64 / 1000). split; [apply polynomial_factorised|]. split.
  - intros job q Hj Hq. destruct (tall_jobs job Hj) as (i & j & Hi & Hj' & ->).
    apply (far_sampled n _ q Hn (Rle_refl _)). exact (grid_cells _ _ _ tall_halving (tile_on_grid i j Hi Hj') Hq).
  - assert (P3 := PI_3).
    assert (4 * (64 / 1000) / PI <= 4 * (64 / 1000) / 3).
    { apply Rmult_le_reg_r with PI; [lra|]. unfold Rdiv at 1. rewrite Rmult_assoc, Rinv_l by lra. lra. }
    lra.
Qed.
Lemma far_dense n job : (6001 <= Z.of_nat n)%Z -> In job (createRootJobs 2 tall_x) -> dense n (1, 1)%Z (rect_of job).
Proof.
  intros Hn Hj. destruct (tall_jobs job Hj) as (i & j & Hi & Hj' & ->). destruct (tile_corners i j Hi Hj') as (_ & _ & C & D).
  apply (dense_any n Hn _ (32 # 10)); [|apply Qle_refl]. rewrite C, D. unfold tw.
  rewrite !inject_Z_plus. change (inject_Z 64) with 64%Q. field.
Qed.

(** A cell that reaches the upper side of a tile is the tile itself or lies in its upper half. *)
Lemma tall_cells P r q : (x1 r < x2 r)%Q -> (y1 r < y2 r)%Q -> ~ wider P r -> cell_of P r q ->
  (x1 q == x1 r /\ x2 q == x2 r /\ y1 q == y1 r /\ y2 q == y2 r)%Q /\ ~ wider P q \/
  ((y1 r + y2 r) / 2 <= y1 q)%Q \/ (y2 q <= (y1 r + y2 r) / 2)%Q.
Proof.
  intros W1 W2 NW HC. induction HC as [|q HC IH NS W|q HC IH NS W|q HC IH NS W|q HC IH NS W].
  1: { left. split; [repeat split; reflexivity|exact NW]. }
  all: destruct (cells_inside _ _ _ W1 W2 HC) as (V1 & V2 & _); destruct (mid_between _ _ V2) as [M1 M2];
    cbn [x1 x2 y1 y2]; (destruct IH as [[(I1 & I2 & I3 & I4) I5]|[I|I]]; [|right; left; Lqa.lra|right; right; Lqa.lra]).
  1, 2: contradiction.
  - right; right. rewrite I3, I4. apply Qle_refl.
  - right; left. rewrite I3, I4. apply Qle_refl.
Qed.

Lemma far_upper job : In job (createRootJobs 2 tall_x) -> (y2 (rect_of job) < y2 (rect_of tall_x))%Q ->
  upper_side_whole far_zeros (1, 1)%Z (rect_of job).
Proof.
  intros Hj HL q Hq HY HW _. destruct (tall_jobs job Hj) as (i & j & Hi & Hj' & ->).
  destruct (tile_corners i j Hi Hj') as (A & B & C & D). set (r := rect_of (tile i j)) in *.
  assert (j = 0%nat) as ->.
  { destruct j as [|[|j]]; [reflexivity| |exfalso; lia]. exfalso. rewrite D in HL. revert HL. apply Qle_not_lt.
    apply Qle_bool_iff. vm_compute. reflexivity. }
  assert (W : (x1 r < x2 r /\ y1 r < y2 r)%Q).
  { rewrite A, B, C, D. destruct i as [|[|i]]; [| |exfalso; lia]; vm_compute; split; reflexivity. }
  assert (NW : ~ wider (1, 1)%Z r).
  { unfold wider. rewrite A, B, C, D. destruct i as [|[|i]]; [| |exfalso; lia]; apply Qle_not_lt; apply Qle_bool_iff; vm_compute; reflexivity. }
  destruct W as [W1 W2]. destruct (mid_between _ _ W2) as [M1 M2].
  destruct (tall_cells _ _ _ W1 W2 NW Hq) as [[_ N]|[N|N]]; [contradiction| |exfalso; rewrite HY in N; Lqa.lra].
  destruct (cells_inside _ _ _ W1 W2 Hq) as (_ & _ & (I1 & I2 & I3 & I4)).
  assert (MID : ((y1 r + y2 r) / 2 == 26 # 20)%Q) by (rewrite C, D; vm_compute; reflexivity).
  assert (TOP : (y2 r == 58 # 20)%Q) by (rewrite D; vm_compute; reflexivity).
  rewrite MID in N. rewrite TOP in I4. apply Qle_Rle in N, I4.
  assert (E1 : Q2R (26 # 20) = 26 / 20) by (unfold Q2R; cbn; lra). assert (E2 : Q2R (58 # 20) = 58 / 20) by (unfold Q2R; cbn; lra).
  rewrite E1 in N. rewrite E2 in I4. unfold count, far_zeros. cbn [filter].
  rewrite !(zinb_out q q _ (refl_inside q)); [reflexivity| |]; cbn [fst snd]; right; right; [right|left]; lra.
Qed.

Lemma far_search n eps turns eprec fuel depth debug e info p sp iter : faithful turns eps -> eps <= 1 / 1000 ->
  (6001 <= Z.of_nat n)%Z -> (100 * n + 3 <= fuel)%nat -> (13 < depth)%nat -> iteration_order iter ->
  let E := sum_env turns (zero_product far_zeros) (1 / 100) (1 # 10000000000) n eprec fuel debug
    (fun _ _ => Err RuntimeError) (fun _ => Err RuntimeError) (fun _ => Err RuntimeError) false false in
  pool_behaviour (pool_outputs E Simple depth new_estimator 2 tall_x) e ->
  let out := parallel_calculateRoots demo_f (0, 0)%Z (0, 29 # 10)%Q (0, 57 # 10)%Q None info e (rc_init p sp) in
  snd out = Ok tt /\ forall q, e = PoolDone q ->
    exactly_once (11 / 20) (0, 0)%Z far_zeros (0, 29 # 10)%Q (0, 57 # 10)%Q (reported_pairs iter (fst out)).
Proof.
  intros HT He Hn Hf Hd HI E HB.
  destruct (C70_parallel_complete_lemma (zero_product far_zeros) far_zeros turns eps (1 / 100) (1 # 10000000000) n eprec fuel debug
    (fun _ _ => Err RuntimeError) (fun _ => Err RuntimeError) (fun _ => Err RuntimeError) false false
    ltac:(lra) ltac:(clear - Hn; lia) Hf HT 2 depth demo_f None (0, 0)%Z (0, 29 # 10)%Q (0, 57 # 10)%Q None p sp iter ltac:(lia) HI
    (far_resolved n eps Hn He) far_upper 6 7 e info) as (_ & A & _ & _ & B).
  - intros job Hj. exact (far_dense n job Hn Hj).
  - vm_compute. reflexivity.
  - vm_compute. reflexivity.
  - clear - Hd. lia.
  - exact HB.
  - split; [exact A|]. intros q Hq. apply (B q Hq).
    assert (U : Q2R (pow10 (- 0)) = 1) by (unfold Q2R; cbn; lra).
    intros z1 z2 H1 H2 D1 _. unfold far_zeros in H1, H2. cbn [search_precision fst snd] in *. rewrite U in D1.
    destruct H1 as [<-|[<-|[]]], H2 as [<-|[<-|[]]]; try reflexivity; exfalso; cbn [fst] in D1;
      unfold Rabs in D1; destruct (Rcase_abs _) in D1; lra.
Qed.

(** A secant iteration that always ends at the zero next to it. *)
Definition far_secant (a b : cplx) : res cplx := Ok (if Qle_bool (re a) 1 then (31 # 60, 22 # 60)%Q else (137 # 60, 283 # 60)%Q).
Lemma far_converging newton r : converging far_secant newton None far_zeros (1, 1)%Z r.
Proof.
  split; [|intro H; exfalso; apply H; reflexivity].
  intros q z _ W1 _ _ Hz [Z1 _]. apply Qlt_Rlt in W1. rewrite Q2R_minus in W1.
  assert (T : Q2R (1 # 10) = 1 / 10) by (unfold Q2R; cbn; lra). rewrite T in W1.
  assert (HP : 0 < Q2R (pow10 (- 1)) / 2) by (unfold Q2R; cbn; lra).
  unfold far_secant. cbn [re fst]. eexists. split; [reflexivity|]. unfold near. cbn [fst snd].
  assert (Q0 : Q2R 1 = 1) by (unfold Q2R; cbn; lra).
  destruct (Qle_bool (x1 q) 1) eqn:X.
  - apply Qle_bool_iff, Qle_Rle in X. rewrite Q0 in X. destruct Hz as [<-|[<-|[]]]; cbn [fst snd] in *; [|exfalso; lra].
    split; (replace (_ - _) with 0 by (unfold Q2R; cbn; lra)); rewrite Rabs_R0; exact HP.
  - assert (X' : (1 < x1 q)%Q) by (apply Qnot_le_lt; intro C; apply Qle_bool_iff in C; congruence).
    apply Qlt_Rlt in X'. rewrite Q0 in X'. destruct Hz as [<-|[<-|[]]]; cbn [fst snd] in *; [exfalso; lra|].
    split; (replace (_ - _) with 0 by (unfold Q2R; cbn; lra)); rewrite Rabs_R0; exact HP.
Qed.

Lemma small_eps : 1 / 2000 <= 1 / 1000.
Proof. lra. Qed.
