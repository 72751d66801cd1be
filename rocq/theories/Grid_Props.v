(** * C31: Newton started on a grid *)
From Verif Require Import PyBase Refine_Model Refine_Spec Grid_Model Grid_Spec Grid_Proofs.
Open Scope Z_scope.

(** The start points: m * m points, row by row, evenly spaced, corners included. *)
Theorem C31_start_points :
  forall m r,
  List.length (grid_points m r) = (m * m)%nat /\
  (forall i j, (i < m)%nat -> (j < m)%nat ->
     ceq (nth (i * m + j) (grid_points m r) (0, 0)%Q)
         (x1 r + inject_Z (Z.of_nat i) * ((x2 r - x1 r) / inject_Z (Z.of_nat (m - 1))),
          y1 r + inject_Z (Z.of_nat j) * ((y2 r - y1 r) / inject_Z (Z.of_nat (m - 1))))%Q) /\
  ((2 <= m)%nat ->
     ceq (nth 0 (grid_points m r) (0, 0)%Q) (x1 r, y1 r) /\
     ceq (nth (m - 1) (grid_points m r) (0, 0)%Q) (x1 r, y2 r) /\
     ceq (nth ((m - 1) * m) (grid_points m r) (0, 0)%Q) (x2 r, y1 r) /\
     ceq (nth (m * m - 1) (grid_points m r) (0, 0)%Q) (x2 r, y2 r)) /\
  (proper r -> forall z, In z (grid_points m r) -> inside r z).
Proof.
  intros m r. split; [apply grid_length|]. split; [apply grid_nth|]. split; [apply grid_corners|].
  intros Hr z. apply grid_inside, Hr.
Qed.
Print Assumptions C31_start_points.

(** One vectorised Newton call.  If no entry converges nothing happens; otherwise every
    final iterate is reported with order 0. *)
Theorem C31_reports :
  forall vec m r progress task l o,
  grid_calcRoots (scipy_newton vec) m r progress task = (l, o) ->
  o = Done tt /\
  ((forall z b, In (z, b) (vec (grid_points m r)) -> b = false) -> l = []) /\
  ((exists z, In (z, true) (vec (grid_points m r))) ->
     roots_of l = map (fun p => (fst p, 0)) (vec (grid_points m r)) /\
     (task_active progress task -> advances_of l = [size r]) /\
     (~ task_active progress task -> advances_of l = [])).
Proof. exact grid_reports. Qed.
Print Assumptions C31_reports.

(** Every limit of a convergent iteration is reported, at most m * m roots are. *)
Theorem C31_limits_reported :
  forall vec m r progress task l o,
  (forall pts, List.length (vec pts) = List.length pts) ->
  grid_calcRoots (scipy_newton vec) m r progress task = (l, o) ->
  (forall z, In (z, true) (vec (grid_points m r)) -> In (z, 0) (roots_of l)) /\
  (List.length (roots_of l) <= m * m)%nat.
Proof.
  intros vec m r progress task l o HL H. destruct (grid_reports _ _ _ _ _ _ _ H) as (_ & H1 & H2).
  destruct (forallb (fun p => negb (snd p)) (vec (grid_points m r))) eqn:E.
  - rewrite forallb_forall in E. rewrite H1.
    + split; [|cbn; lia]. intros z Hz. specialize (E _ Hz). discriminate E.
    + intros z b Hz. specialize (E _ Hz). cbn in E. destruct b; [discriminate|reflexivity].
  - destruct H2 as (H2 & _).
    + clear H1 HL H. induction (vec (grid_points m r)) as [|[z b] ps IH]; [discriminate|].
      cbn in E. destruct b; [exists z; left; reflexivity|]. destruct (IH E) as [w Hw]. exists w. right. exact Hw.
    + rewrite H2. split.
      * intros z Hz. apply in_map_iff. exists (z, true). auto.
      * rewrite map_length, HL, grid_length. lia.
Qed.
Print Assumptions C31_limits_reported.

(** That only limits of convergent iterations are reported is false. *)
Theorem C31_only_limits_reported_refuted :
  exists vec m r l o,
  (forall pts, List.length (vec pts) = List.length pts) /\ proper r /\
  grid_calcRoots (scipy_newton vec) m r true (Some 1) = (l, o) /\
  exists z, In (z, 0) (roots_of l) /\ In (z, false) (vec (grid_points m r)) /\
            ~ In (z, true) (vec (grid_points m r)).
Proof.
  exists (fun pts => match pts with [] => [] | p :: ps => (p, true) :: map (fun q => (q, false)) ps end), 2%nat, (mkRect 0 1 0 1).
  eexists. eexists. split; [intros [|p ps]; cbn; [reflexivity|rewrite map_length; reflexivity]|].
  split; [split; discriminate|]. split; [vm_compute; reflexivity|].
  exists (1, 1)%Q. vm_compute. split; [auto 6|]. split; [auto 6|].
  intuition discriminate.
Qed.
Print Assumptions C31_only_limits_reported_refuted.

(** A RuntimeError is swallowed, other exceptions (for instance of the target function)
    propagate; nothing is reported. *)
Theorem C31_exceptions :
  forall newton m r progress task e, newton (grid_points m r) = Err e ->
  let '(l, o) := grid_calcRoots newton m r progress task in
  l = [] /\ (is_RuntimeError e -> o = Done tt) /\ (~ is_RuntimeError e -> o = Raised e).
Proof. exact grid_exception. Qed.
Print Assumptions C31_exceptions.

(** C29 for this algorithm: the progress bar of the first task (id 0) never moves. *)
Theorem C29_newton_grid_first_task :
  forall vec m r progress l o,
  grid_calcRoots (scipy_newton vec) m r progress (Some 0) = (l, o) -> advances_of l = [].
Proof.
  intros vec m r progress l o H. destruct (grid_reports _ _ _ _ _ _ _ H) as (_ & H1 & H2).
  destruct (forallb (fun p => negb (snd p)) (vec (grid_points m r))) eqn:E.
  - rewrite H1; [reflexivity|]. intros z b Hz. rewrite forallb_forall in E. specialize (E _ Hz). cbn in E.
    destruct b; [discriminate|reflexivity].
  - destruct H2 as (_ & _ & H2).
    + clear H1 H. induction (vec (grid_points m r)) as [|[z b] ps IH]; [discriminate|].
      cbn in E. destruct b; [exists z; left; reflexivity|]. destruct (IH E) as [w Hw]. exists w. right. exact Hw.
    + apply H2. intros [_ [t [C D]]]. congruence.
Qed.
Print Assumptions C29_newton_grid_first_task.

Example C31_nonvacuous :
  let r := mkRect 0 2 0 2 in
  map (fun z => (Qred (re z), Qred (im z))) (grid_points 3 r) =
    [(0, 0); (0, 1); (0, 2); (1, 0); (1, 1); (1, 2); (2, 0); (2, 1); (2, 2)]%Q /\
  fst (grid_calcRoots (scipy_newton (map (fun z => (z, Qeq_bool (re z) 0)))) 3 r true (Some 1)) <> [].
Proof. split; [vm_compute; reflexivity|vm_compute; discriminate]. Qed.
