From Verif Require Import PyBase Finder_Model Finder_Proofs Refine_Model Refine_Spec Refine_Proofs2 Grid_Model Grid_Spec.
Open Scope Z_scope.

Lemma linspace_m_length a b m : List.length (linspace_m a b m) = m.
Proof. destruct m; [reflexivity|]. apply linspace_length. Qed.

Lemma flat_map_pairs_length {A B} (l : list A) (k : list B) :
  List.length (flat_map (fun x => map (fun y => (x, y)) k) l) = (List.length l * List.length k)%nat.
Proof.
  induction l as [|a l IH]; [reflexivity|]. cbn [flat_map List.length]. rewrite app_length, map_length, IH. lia.
Qed.

Lemma grid_length m r : List.length (grid_points m r) = (m * m)%nat.
Proof.
  unfold grid_points. etransitivity; [apply flat_map_pairs_length|]. rewrite !linspace_m_length. reflexivity.
Qed.

Lemma flat_map_pairs_nth {A B} (l : list A) (k : list B) da db i j :
  (i < List.length l)%nat -> (j < List.length k)%nat ->
  nth (i * List.length k + j) (flat_map (fun x => map (fun y => (x, y)) k) l) (da, db) = (nth i l da, nth j k db).
Proof.
  revert i. induction l as [|a l IH]; intros i Hi Hj; [cbn in Hi; lia|].
  cbn [flat_map]. destruct i as [|i].
  - cbn [Nat.mul Nat.add nth]. rewrite app_nth1 by (rewrite map_length; exact Hj).
    rewrite (nth_indep _ (da, db) ((fun y => (a, y)) db)) by (rewrite map_length; exact Hj).
    rewrite (map_nth (fun y => (a, y))). reflexivity.
  - rewrite app_nth2 by (rewrite map_length; lia). rewrite map_length.
    replace (S i * List.length k + j - List.length k)%nat with (i * List.length k + j)%nat by lia.
    cbn [nth]. apply IH; [cbn in Hi; lia|exact Hj].
Qed.

Lemma linspace_m_nth a b n i : (i <= n)%nat ->
  (nth i (linspace_m a b (S n)) 0 ==
   a + inject_Z (Z.of_nat i) * ((b - a) / inject_Z (Z.of_nat n)))%Q.
Proof. intro H. cbn [linspace_m]. rewrite linspace_nth by exact H. reflexivity. Qed.

Lemma grid_nth m r i j : (i < m)%nat -> (j < m)%nat ->
  ceq (nth (i * m + j) (grid_points m r) (0, 0)%Q)
      (x1 r + inject_Z (Z.of_nat i) * ((x2 r - x1 r) / inject_Z (Z.of_nat (m - 1))),
       y1 r + inject_Z (Z.of_nat j) * ((y2 r - y1 r) / inject_Z (Z.of_nat (m - 1))))%Q.
Proof.
  intros Hi Hj. destruct m as [|n]; [lia|]. unfold grid_points.
  pose proof (flat_map_pairs_nth (linspace_m (x1 r) (x2 r) (S n)) (linspace_m (y1 r) (y2 r) (S n)) 0%Q 0%Q i j) as H.
  rewrite !linspace_m_length in H. unfold cplx in *. rewrite H by lia. cbn [Nat.sub]. rewrite Nat.sub_0_r.
  split; cbn [re im fst snd]; apply linspace_m_nth; lia.
Qed.

Lemma Qdiv_le_1 (i n : nat) : (i <= n)%nat -> (0 < n)%nat ->
  (0 <= inject_Z (Z.of_nat i) / inject_Z (Z.of_nat n) <= 1)%Q.
Proof.
  intros H Hn. assert (P : (0 < inject_Z (Z.of_nat n))%Q) by (change 0%Q with (inject_Z 0); rewrite <- Zlt_Qlt; lia).
  split.
  - apply Qle_shift_div_l; [exact P|]. rewrite Qmult_0_l. change 0%Q with (inject_Z 0). rewrite <- Zle_Qle. lia.
  - apply Qle_shift_div_r; [exact P|]. rewrite Qmult_1_l. rewrite <- Zle_Qle. lia.
Qed.

Lemma linspace_m_in a b m x : (a <= b)%Q -> In x (linspace_m a b m) -> (a <= x <= b)%Q.
Proof.
  intros Hab H. destruct m as [|n]; [destruct H|]. cbn [linspace_m] in H. unfold linspace in H.
  apply in_map_iff in H. destruct H as [i [<- Hi]]. apply in_seq in Hi. unfold linspace_pt.
  destruct n as [|n].
  - replace i with 0%nat by lia. change (inject_Z (Z.of_nat 0)) with 0%Q.
    setoid_replace (a + 0 * ((b - a) / 0))%Q with a by ring. lra.
  - pose proof (Qdiv_le_1 i (S n) ltac:(lia) ltac:(lia)) as [F1 F2].
    set (t := (inject_Z (Z.of_nat i) / inject_Z (Z.of_nat (S n)))%Q) in *.
    setoid_replace (a + inject_Z (Z.of_nat i) * ((b - a) / inject_Z (Z.of_nat (S n))))%Q with (a + t * (b - a))%Q
      by (unfold t, Qdiv; ring).
    split; nra.
Qed.

Lemma grid_inside m r z : proper r -> In z (grid_points m r) -> inside r z.
Proof.
  intros [Hx Hy] H. unfold grid_points in H. apply in_flat_map in H. destruct H as [x [H1 H2]].
  apply in_map_iff in H2. destruct H2 as [y [<- H2]].
  split; cbn [re im fst snd]; eapply linspace_m_in; eassumption.
Qed.

(** The four corners. *)
Lemma grid_corners m r : (2 <= m)%nat ->
  ceq (nth 0 (grid_points m r) (0, 0)%Q) (x1 r, y1 r) /\
  ceq (nth (m - 1) (grid_points m r) (0, 0)%Q) (x1 r, y2 r) /\
  ceq (nth ((m - 1) * m) (grid_points m r) (0, 0)%Q) (x2 r, y1 r) /\
  ceq (nth (m * m - 1) (grid_points m r) (0, 0)%Q) (x2 r, y2 r).
Proof.
  intro Hm.
  assert (P : ~ (inject_Z (Z.of_nat (m - 1)) == 0)%Q).
  { intro C. change 0%Q with (inject_Z 0) in C. apply (proj1 (inject_Z_injective _ _)) in C. lia. }
  pose proof (grid_nth m r 0 0 ltac:(lia) ltac:(lia)) as A.
  pose proof (grid_nth m r 0 (m - 1) ltac:(lia) ltac:(lia)) as B.
  pose proof (grid_nth m r (m - 1) 0 ltac:(lia) ltac:(lia)) as C.
  pose proof (grid_nth m r (m - 1) (m - 1) ltac:(lia) ltac:(lia)) as D.
  replace (0 * m + 0)%nat with 0%nat in A by lia.
  replace (0 * m + (m - 1))%nat with (m - 1)%nat in B by lia.
  replace ((m - 1) * m + 0)%nat with ((m - 1) * m)%nat in C by lia.
  replace ((m - 1) * m + (m - 1))%nat with (m * m - 1)%nat in D by nia.
  change (inject_Z (Z.of_nat 0)) with 0%Q in *.
  destruct A as [A1 A2], B as [B1 B2], C as [C1 C2], D as [D1 D2].
  unfold ceq. rewrite A1, A2, B1, B2, C1, C2, D1, D2. cbn [re im fst snd].
  repeat split; field; exact P.
Qed.

Lemma roots_of_grid zs l : roots_of (map (fun z => EvRoot (z, 0)) zs ++ l) = map (fun z => (z, 0)) zs ++ roots_of l.
Proof. rewrite map_root0, roots_app, roots_of_map. reflexivity. Qed.

Lemma grid_reports vec m r progress task l o :
  grid_calcRoots (scipy_newton vec) m r progress task = (l, o) ->
  o = Done tt /\
  ((forall z b, In (z, b) (vec (grid_points m r)) -> b = false) -> l = []) /\
  ((exists z, In (z, true) (vec (grid_points m r))) ->
     roots_of l = map (fun p => (fst p, 0)) (vec (grid_points m r)) /\
     (task_active progress task -> advances_of l = [area r]) /\
     (~ task_active progress task -> advances_of l = [])).
Proof.
  unfold grid_calcRoots, scipy_newton.
  destruct (forallb (fun r0 => negb (snd r0)) (vec (grid_points m r))) eqn:E; intro H; inversion H; subst; clear H.
  - split; [reflexivity|]. split; [reflexivity|]. intros [z Hz]. rewrite forallb_forall in E.
    specialize (E _ Hz). discriminate E.
  - split; [reflexivity|]. split.
    + intro H. exfalso. apply Bool.not_true_iff_false in E. apply E. apply forallb_forall.
      intros [z b] Hz. rewrite (H z b Hz). reflexivity.
    + intros _. rewrite roots_of_grid.
      assert (ND : forall zs, advances_of (map (fun z => EvRoot (z, 0)) zs) = []).
      { intro zs. rewrite map_root0. apply advances_roots. }
      rewrite advances_app, ND. cbn [app].
      destruct progress; cbn [andb].
      * destruct task as [t|].
        -- destruct (Z.eqb_spec t 0) as [Et|Et]; cbn [negb].
           ++ rewrite app_nil_r, map_map. split; [reflexivity|]. split; [|reflexivity].
              intros [_ [t' [[= <-] Ht']]]. contradiction.
           ++ change (roots_of [EvAdvance _]) with (@nil root). rewrite app_nil_r, map_map.
              split; [reflexivity|]. split; [reflexivity|]. intro C. exfalso. apply C. split; [reflexivity|]. eauto.
        -- rewrite app_nil_r, map_map. split; [reflexivity|]. split; [|reflexivity]. intros [_ [t [C _]]]. discriminate.
      * rewrite app_nil_r, map_map. split; [reflexivity|]. split; [|reflexivity]. intros [C _]. discriminate.
Qed.

Lemma grid_exception newton m r progress task e :
  newton (grid_points m r) = Err e ->
  let '(l, o) := grid_calcRoots newton m r progress task in
  l = [] /\ (is_RuntimeError e -> o = Done tt) /\ (~ is_RuntimeError e -> o = Raised e).
Proof.
  intro H. unfold grid_calcRoots. rewrite H. split; [reflexivity|]. unfold is_RuntimeError.
  destruct e; cbn; split; intro I; try reflexivity; exfalso; intuition discriminate.
Qed.
