From Coq Require Import Reals Qreals Qminmax Permutation Lqa Lra.
From Verif Require Import PyBase Rounding_Model Rounding_Spec Rounding_Proofs Container_Model Container_Spec
  Container_Proofs Finder_Model Finder_Spec Finder_Proofs Refine_Model Refine_Spec Refine_Proofs2 Zeros_Spec
  Grid_Model Grid_Spec Grid_Proofs EndToEnd_Model EndToEnd_Spec EndToEnd_Proofs GridEnd_Model GridEnd_Spec
  GridEnd_Proofs GridEnd_Proofs2 GridEnd_Proofs3.
Open Scope Q_scope.

Lemma rounds_close p x y k : Qred y = y -> y == inject_Z k * pow10 (- p) ->
  Qabs (x - y) < (1 # 2) * pow10 (- p) -> rounds_to p x y.
Proof.
  intros C K H. split; [exact C|]. exists k. split; [exact K|]. intros j J.
  assert (U : 0 < pow10 (- p)) by (apply Rlt_Qlt; rewrite RMicromega.Q2R_0; apply Q2R_pow10_pos).
  assert (L : (1 # 2) * pow10 (- p) < Qabs (x - inject_Z j * pow10 (- p))).
  { set (u := pow10 (- p)) in *. rewrite K in H. clear K C.
    assert (D : (inject_Z j <= inject_Z k - 1 \/ inject_Z k + 1 <= inject_Z j)%Q).
    { destruct (Z_lt_ge_dec j k) as [G|G]; [left|right].
      - apply Qle_trans with (inject_Z (k - 1)); [rewrite <- Zle_Qle; lia|].
        unfold Zminus. rewrite inject_Z_plus. apply Qle_refl.
      - apply Qle_trans with (inject_Z (k + 1)); [|rewrite <- Zle_Qle; lia].
        rewrite inject_Z_plus. apply Qle_refl. }
    revert H. apply Qabs_case; apply Qabs_case; intros; destruct D; Lqa.nra. }
  split; [apply Qlt_le_weak; eapply Qlt_trans; eassumption|].
  intro E. rewrite E in H. exfalso. apply (Qlt_irrefl ((1 # 2) * pow10 (- p))). eapply Qlt_trans; eassumption.
Qed.

(** Newton's method on z - 1/20: the first start point ends slightly to the right of the
    zero, the others slightly to the left. *)
Definition split_newton (e : Q) : holoFunc -> option holoFunc -> list cplx -> res (list cplx) :=
  fun _ _ starts => Ok (match starts with [] => [] | _ :: ss => (((1 # 20) + e, 0) : cplx) :: map (fun _ => ((1 # 20) - e, 0)) ss end).

Lemma twice e : 0 < e -> e < 1 # 20 ->
  exists newton f (z : cplx) (reRan imRan : Q * Q),
    f z = Ok (0, 0) /\
    let pt := (Q2R (re z), Q2R (im z)) in
    requested reRan imRan pt /\
    (forall hx hy, attracts newton f None hx hy (Q2R e) 0 pt) /\
    (forall starts ends w, newton f None starts = Ok ends -> In w ends -> off (Q2R e) 0 w pt) /\
    forall iter, iteration_order iter ->
      exists v1 v2, ~ ceq v1 v2 /\
        let pairs := reported_pairs iter (fst (calculateRoots f None (0, 0)%Z
          (grid_algorithm newton 2 false None (fun _ => false)) reRan imRan None (rc_init None (0, 0)%Z))) in
        In (v1, 0%Z) pairs /\ In (v2, 0%Z) pairs.
Proof.
  intros H0 H1.
  exists (split_newton e), (fun w => Ok (Qred (re w - (1 # 20)), Qred (im w))), (1 # 20, 0), (0, 1), (0, 1).
  assert (OF : forall w, w = ((1 # 20) + e, 0) \/ w = ((1 # 20) - e, 0) ->
            off (Q2R e) 0 w (Q2R (1 # 20), Q2R 0)).
  { intros w [-> | ->]; unfold off; cbn [re im fst snd]; rewrite <- !Q2R_minus.
    - split.
      + setoid_replace ((1 # 20) - ((1 # 20) + e)) with (- e) by ring. rewrite Q2R_opp, Rabs_Ropp.
        rewrite Rabs_pos_eq; [apply Rle_refl|]. apply Qlt_Rlt in H0. rewrite RMicromega.Q2R_0 in H0. Lra.lra.
      + setoid_replace (0 - 0) with 0 by ring. rewrite RMicromega.Q2R_0, Rabs_R0. apply Rle_refl.
    - split.
      + setoid_replace ((1 # 20) - ((1 # 20) - e)) with e by ring.
        rewrite Rabs_pos_eq; [apply Rle_refl|]. apply Qlt_Rlt in H0. rewrite RMicromega.Q2R_0 in H0. Lra.lra.
      + setoid_replace (0 - 0) with 0 by ring. rewrite RMicromega.Q2R_0, Rabs_R0. apply Rle_refl. }
  assert (EN : forall starts ends w, split_newton e (fun w => Ok (Qred (re w - (1 # 20)), Qred (im w))) None starts = Ok ends ->
            In w ends -> w = ((1 # 20) + e, 0) \/ w = ((1 # 20) - e, 0)).
  { intros starts ends w N I. unfold split_newton in N. injection N as <-. destruct starts as [|s ss]; [destruct I|].
    destruct I as [<-|I]; [auto|]. apply in_map_iff in I. destruct I as (? & <- & _). auto. }
  split; [vm_compute; reflexivity|]. cbn zeta. split.
  { split; cbn [fst snd re im]; split; apply Qle_Rle; vm_compute; discriminate. }
  split.
  { intros hx hy starts k s K _. eexists. 
    destruct (nth_error (match starts with [] => [] | _ :: ss => (((1 # 20) + e, 0) : cplx) :: map (fun _ => ((1 # 20) - e, 0)) ss end) k) as [w|] eqn:W.
    - exists w. split; [reflexivity|]. split; [exact W|]. apply OF. eapply EN; [reflexivity|]. eapply nth_error_In, W.
    - exfalso. apply nth_error_None in W. assert (k < List.length starts)%nat by (apply nth_error_Some; congruence).
      destruct starts as [|s0 ss]; [cbn in *; lia|]. cbn [List.length] in *. rewrite map_length in W. lia. }
  split; [intros; apply OF; eapply EN; eassumption|].
  intros iter HI.
  destruct (serial_grid (split_newton e) 2 false None (fun _ => false)
    (fun w => Ok (Qred (re w - (1 # 20)), Qred (im w))) None (0, 0)%Z (0, 1) (0, 1) None None (0, 0)%Z [] iter HI)
    as (re' & im' & starts & _ & [SL _] & _ & OK).
  destruct (OK _ eq_refl) as [_ S].
  { intros z _ k q R. destruct (registered_nil _ _ R). }
  assert (AC : forall w ctx, accepted [] (w, 0%Z) ctx) by (intros w ctx k q R; destruct (registered_nil _ _ R)).
  destruct starts as [|s0 [|s1 ss]]; [discriminate SL|discriminate SL|].
  exists (1 # 10, 0), (0, 0). split; [intros [C _]; discriminate C|]. cbn zeta. split.
  - apply S. left. exists ((1 # 20) + e, 0). split; [left; reflexivity|]. split; [apply AC|].
    split; [|split; [|reflexivity]].
    + apply (rounds_close _ _ _ 1); [reflexivity|vm_compute; reflexivity|].
      cbn [re fst snd]. setoid_replace ((1 # 20) + e - (1 # 10)) with (e - (1 # 20)) by ring.
      apply Qabs_case; intro; change (pow10 (- fst (one_more (decimals (0, 0)%Z None)))) with (1 # 10); Lqa.lra.
    + apply (rounds_close _ _ _ 0); [reflexivity|vm_compute; reflexivity|vm_compute; reflexivity].
  - apply S. left. exists ((1 # 20) - e, 0). split; [right; left; reflexivity|]. split; [apply AC|].
    split; [|split; [|reflexivity]].
    + apply (rounds_close _ _ _ 0); [reflexivity|vm_compute; reflexivity|].
      cbn [re fst snd]. setoid_replace ((1 # 20) - e - 0) with ((1 # 20) - e) by ring.
      apply Qabs_case; intro; change (pow10 (- fst (one_more (decimals (0, 0)%Z None)))) with (1 # 10); Lqa.lra.
    + apply (rounds_close _ _ _ 0); [reflexivity|vm_compute; reflexivity|vm_compute; reflexivity].
Qed.

(** Two zeros, at 1 + i and 3 + i: start points left of the middle end near the first one,
    the others at the second one; candidates outside the searched domain are filtered out. *)
Definition two_newton : holoFunc -> option holoFunc -> list cplx -> res (list cplx) :=
  fun _ _ starts => Ok (map (fun s : cplx => if Qle_bool (re s) 2 then (1000001 # 1000000, 1) else (3, 1)) starts).
Definition two_zeros : list point := [(1, 1)%R; (3, 1)%R].
Definition two_f : holoFunc := fun w => Ok ((re w - 1) * (re w - 3), im w - 1).
Definition two_h : list rc_op := [RRegister zero_in_bounds "[zero-in-bounds]"%string].

Lemma two_total : forall P w re' im', filters_total two_h (w, 0%Z) (mkFctx two_f re' im' P 3).
Proof.
  intros P w re' im' k q (h1 & h2 & E & _). destruct h1 as [|o h1]; [|destruct h1; discriminate E].
  injection E as <- _ _. eexists. reflexivity.
Qed.

Lemma two_off w z : (Rabs (fst z - Q2R (re w)) <= / 1000000)%R -> (Rabs (snd z - Q2R (im w)) <= / 1000000)%R ->
  In z two_zeros -> re w <= 4 /\ 0 <= re w /\ im w <= 2 /\ 0 <= im w.
Proof.
  intros H1 H2 I. apply Rabs_le_both in H1. apply Rabs_le_both in H2.
  change 4 with (inject_Z 4). change 2 with (inject_Z 2). change 0 with (inject_Z 0).
  repeat split; apply Rle_Qle; rewrite ?Q2R_Z; destruct I as [<-|[<-|[]]]; cbn [fst snd] in *; Lra.lra.
Qed.

Lemma two_accepted P w re' im' z : enlarged (0, 4) (0, 2) P re' im' -> In z two_zeros ->
  off (/ 1000000) (/ 1000000) w z -> accepted two_h (w, 0%Z) (mkFctx two_f re' im' P 3).
Proof.
  intros (E1 & E2 & E3 & E4) I [O1 O2] k q (h1 & h2 & E & _).
  destruct h1 as [|o h1]; [|destruct h1; discriminate E]. injection E as <- _ _.
  destruct (two_off w z O1 O2 I) as (A & B & C & D).
  unfold zero_in_bounds. cbn [fc_reRan fc_imRan fst]. f_equal. rewrite !andb_true_iff, !Qle_bool_iff.
  assert (U : 0 < pow10 (- fst P)) by (apply Rlt_Qlt; rewrite RMicromega.Q2R_0; apply Q2R_pow10_pos).
  assert (V : 0 < pow10 (- snd P)) by (apply Rlt_Qlt; rewrite RMicromega.Q2R_0; apply Q2R_pow10_pos).
  change (Qmin (fst (0, 4)) (snd (0, 4))) with 0 in E1. change (Qmax (fst (0, 4)) (snd (0, 4))) with 4 in E2.
  change (Qmin (fst (0, 2)) (snd (0, 2))) with 0 in E3. change (Qmax (fst (0, 2)) (snd (0, 2))) with 2 in E4.
  rewrite E1, E2, E3, E4. repeat split; Lqa.lra.
Qed.

Lemma two_ends w : w = (1000001 # 1000000, 1) \/ w = (3, 1) ->
  exists z, In z two_zeros /\ off (/ 1000000) (/ 1000000) w z.
Proof.
  intros [-> | ->].
  - exists (1, 1)%R. split; [left; reflexivity|]. unfold off. cbn [re im fst snd]. unfold Q2R. cbn [Qnum Qden].
    split; apply Rabs_le; Lra.lra.
  - exists (3, 1)%R. split; [right; left; reflexivity|]. unfold off. cbn [re im fst snd]. unfold Q2R. cbn [Qnum Qden].
    split; apply Rabs_le; Lra.lra.
Qed.

Lemma two_sound P : forall starts ends w re' im', two_newton two_f None starts = Ok ends -> In w ends ->
  enlarged (0, 4) (0, 2) P re' im' -> accepted two_h (w, 0%Z) (mkFctx two_f re' im' P 3) ->
  exists z, In z two_zeros /\ off (/ 1000000) (/ 1000000) w z.
Proof.
  intros starts ends w re' im' N I _ _. injection N as <-. apply in_map_iff in I. destruct I as (s & <- & _).
  apply two_ends. destruct (Qle_bool (re s) 2); auto.
Qed.

Lemma two_attracts z hx hy : In z two_zeros -> (hx < 1)%R ->
  attracts two_newton two_f None hx hy (/ 1000000) (/ 1000000) z.
Proof.
  intros I H starts k s K [O1 _]. apply Rabs_le_both in O1. eexists. eexists. split; [reflexivity|].
  split; [apply map_nth_error, K|]. destruct (Qle_bool (re s) 2) eqn:E.
  - apply Qle_bool_iff in E. apply Qle_Rle in E. change 2 with (inject_Z 2) in E. rewrite Q2R_Z in E.
    destruct I as [<-|[<-|[]]]; cbn [fst snd] in O1; [|exfalso; Lra.lra].
    unfold off. cbn [re im fst snd]. unfold Q2R. cbn [Qnum Qden]. split; apply Rabs_le; Lra.lra.
  - assert (L : 2 < re s). { apply Qnot_le_lt. intro C. apply Qle_bool_iff in C. congruence. }
    apply Qlt_Rlt in L. change 2 with (inject_Z 2) in L. rewrite Q2R_Z in L.
    destruct I as [<-|[<-|[]]]; cbn [fst snd] in O1; [exfalso; Lra.lra|].
    unfold off. cbn [re im fst snd]. unfold Q2R. cbn [Qnum Qden]. split; apply Rabs_le; Lra.lra.
Qed.

Lemma two_requested z : In z two_zeros -> requested (0, 4) (0, 2) z.
Proof.
  unfold requested. change (Qmin (fst (0, 4)) (snd (0, 4))) with (inject_Z 0). change (Qmax (fst (0, 4)) (snd (0, 4))) with (inject_Z 4).
  change (Qmin (fst (0, 2)) (snd (0, 2))) with (inject_Z 0). change (Qmax (fst (0, 2)) (snd (0, 2))) with (inject_Z 2).
  rewrite !Q2R_Z. intros [<-|[<-|[]]]; cbn [fst snd]; Lra.lra.
Qed.

Lemma unit_3 : Q2R (pow10 (Z.opp 3)) = (/ 1000)%R.
Proof. unfold Q2R. vm_compute pow10. cbn [Qnum Qden]. Lra.lra. Qed.

Lemma two_apart : apart (2 * (/ 1000000 + half_unit 3)) (2 * (/ 1000000 + half_unit 3)) two_zeros.
Proof.
  unfold half_unit. rewrite unit_3. intros z1 z2 [<-|[<-|[]]] [<-|[<-|[]]] H1 _; cbn [fst snd] in *; try reflexivity;
    apply Rabs_le_both in H1; exfalso; Lra.lra.
Qed.

Lemma two_clear v : v = 1%Z \/ v = 3%Z -> clear_of_ties 3 (/ 1000000) (IZR v).
Proof.
  intros Hv k. rewrite unit_3.
  assert (D : (IZR k <= IZR (1000 * v - 1) \/ IZR (1000 * v) <= IZR k)%R).
  { destruct (Z_le_gt_dec (1000 * v) k); [right|left]; apply IZR_le; lia. }
  rewrite minus_IZR, !mult_IZR in D. destruct D as [D|D].
  - rewrite Rabs_pos_eq; Lra.lra.
  - rewrite Rabs_left; Lra.lra.
Qed.

Lemma two_width : (domain_width (0, 4)%Q (3, 3)%Z / (2 * INR (5 - 1)) < 1)%R.
Proof.
  unfold domain_width. cbn [fst snd]. rewrite unit_3.
  change (Qmax 0 4) with (inject_Z 4). change (Qmin 0 4) with (inject_Z 0). rewrite !Q2R_Z.
  cbn [Nat.sub INR]. Lra.lra.
Qed.
