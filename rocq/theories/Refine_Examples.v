(** Concrete searches. *)
From Coq Require Import Reals Qreals.
From Verif Require Import PyBase Rounding_Model Poly_Model Refine_Model Refine_Spec Zeros_Spec
  Zeros_Proofs Refine_Proofs3.
From Coq Require Import Lqa.
Open Scope Z_scope.

(** Estimator answering always [t], solvers always failing. *)
Definition const_env (t : Q) (p : Z * Z) : env unit :=
  mkEnv (S := unit) (fun _ _ _ => (tt, [], Ok (t, 0%Q))) (fun _ _ s => s) (fun _ => false) (fun s => s)
    (fun _ _ => Err RuntimeError) (fun _ => Err RuntimeError) (fun _ => Err ValueError) true p true.

Definition qpoint (z : cplx) : point := (Q2R (re z), Q2R (im z)).

Definition qin (r : rect) (z : cplx) : bool :=
  Qle_bool (x1 r) (re z) && Qle_bool (re z) (x2 r) &&
  (Qle_bool (y1 r) (im z) && Qle_bool (im z) (y2 r)).
Definition qstrict (r : rect) (z : cplx) : bool :=
  Qltb (x1 r) (re z) && Qltb (re z) (x2 r) &&
  (Qltb (y1 r) (im z) && Qltb (im z) (y2 r)).
Definition qcount (zs : list cplx) (r : rect) : nat := List.length (filter (qin r) zs).

Lemma qin_zin r z : qin r z = true <-> zin r (qpoint z).
Proof.
  unfold qin, zin, qpoint. cbn [fst snd]. rewrite !andb_true_iff, !Qleb_true.
  split.
  - intros [[A B] [C D]]. apply Qle_Rle in A, B, C, D. auto.
  - intros [[A B] [C D]]. apply Rle_Qle in A, B, C, D. auto.
Qed.
Lemma qstrict_zstrict r z : qstrict r z = true <-> zstrict r (qpoint z).
Proof.
  unfold qstrict, zstrict, qpoint. cbn [fst snd]. rewrite !andb_true_iff, !Qltb_true.
  split.
  - intros [[A B] [C D]]. apply Qlt_Rlt in A, B, C, D. auto.
  - intros [[A B] [C D]]. apply Rlt_Qlt in A, B, C, D. auto.
Qed.
Lemma count_qcount zs r : count (map qpoint zs) r = qcount zs r.
Proof.
  unfold count, qcount. induction zs as [|z zs IH]; [reflexivity|]. cbn [map filter].
  assert (H : zinb r (qpoint z) = qin r z).
  { destruct (qin r z) eqn:Hq.
    - apply zinb_true, qin_zin, Hq.
    - apply zinb_false. rewrite <- qin_zin. congruence. }
  rewrite H. destruct (qin r z); cbn; rewrite IH; reflexivity.
Qed.
Definition qavoids (zs : list cplx) (r : rect) : bool :=
  forallb (fun z => negb (qin r z) || qstrict r z) zs.
Lemma qavoids_avoids zs r : qavoids zs r = true -> avoids (map qpoint zs) r.
Proof.
  intros H z Hz Hin. apply in_map_iff in Hz. destruct Hz as (q & <- & Hq).
  unfold qavoids in H. rewrite forallb_forall in H. specialize (H q Hq).
  apply orb_true_iff in H. apply qstrict_zstrict. destruct H as [H|H]; [|exact H].
  apply qin_zin in Hin. rewrite Hin in H. discriminate.
Qed.

(** Exact estimator for the rational zeros [zs]. *)
Definition exact_env (zs : list cplx) (p : Z * Z) : env unit :=
  mkEnv (S := unit) (fun _ r _ => (tt, [], Ok (inject_Z (Z.of_nat (qcount zs r)), 0%Q)))
    (fun _ _ s => s) (fun _ => false) (fun s => s)
    (fun _ _ => Err RuntimeError) (fun _ => Err RuntimeError) (fun _ => Err ValueError) true p true.

Definition good_event (zs : list cplx) (ev : event) : bool :=
  match ev with
  | EvMoment 0 q (Ok m) => qavoids zs q && Qeq_bool (re m) (inject_Z (Z.of_nat (qcount zs q)))
  | EvMoment 0 q (Err _) => false
  | _ => true
  end.

Lemma good_events zs l : forallb (good_event zs) l = true -> good_run (map qpoint zs) l.
Proof.
  intros H q m Hi. rewrite forallb_forall in H. specialize (H _ Hi). cbn in H.
  destruct m as [m|e]; [|discriminate]. apply andb_true_iff in H. destruct H as [H1 H2].
  split; [apply qavoids_avoids, H1|]. exists m. split; [reflexivity|].
  apply good_if_close. rewrite count_qcount. apply Qeqb_true in H2. rewrite H2.
  setoid_replace (inject_Z (Z.of_nat (qcount zs q)) - inject_Z (Z.of_nat (qcount zs q)))%Q with 0%Q by ring.
  discriminate.
Qed.

Definition demo_qzeros : list cplx := [(1 # 3, 1 # 3); (1 # 3, 1 # 3); (5 # 3, 4 # 3)]%Q.
Definition demo_zeros : list point := map qpoint demo_qzeros.
Definition demo_env : env unit := exact_env demo_qzeros (0, 0).
Definition demo_rect : rect := mkRect 0 2 0 2.

Lemma demo_run :
  exists s' l,
    calcRoots demo_env Simple 5 demo_rect tt = (s', l, Done tt) /\
    proper demo_rect /\ good_run demo_zeros l /\
    map (fun r => (Qred (re (fst r)), Qred (im (fst r)), snd r)) (located l) =
      [((1 # 4)%Q, (1 # 4)%Q, 2); ((7 # 4)%Q, (5 # 4)%Q, 1)] /\
    count demo_zeros demo_rect = 3%nat /\
    (x2 demo_rect - x1 demo_rect < inject_Z (2 ^ Z.of_nat 2) * pow10 (- fst (e_precision demo_env)))%Q /\
    (y2 demo_rect - y1 demo_rect < inject_Z (2 ^ Z.of_nat 2) * pow10 (- snd (e_precision demo_env)))%Q.
Proof.
  eexists. eexists. split; [vm_compute; reflexivity|].
  split; [split; discriminate|].
  split; [apply good_events; vm_compute; reflexivity|].
  split; [vm_compute; reflexivity|].
  split; [unfold demo_zeros; rewrite count_qcount; vm_compute; reflexivity|].
  split; reflexivity.
Qed.

Definition unit_rect : rect := mkRect 0 1 0 1.

Lemma tight_lost (d : Q) : (0 < d)%Q ->
  exists (E : env unit) (r : rect) (zeros : list point) s' l,
    proper r /\ avoids zeros r /\ count zeros r = 1%nat /\
    (forall k q s, e_est E k q s = (tt, [], Ok (1 - (1 # 5) - d, 0)%Q)) /\
    calcRoots E Simple 1 r tt = (s', l, Done tt) /\ located l = [].
Proof.
  intro Hd. set (E := const_env (1 - (1 # 5) - d)%Q (0, 0)).
  pose proof (C24_first_decision E Simple 0 unit_rect tt tt [] (1 - (1 # 5) - d, 0)%Q
    ltac:(split; discriminate) ltac:(discriminate) eq_refl) as H.
  destruct (calcRoots E Simple 1 unit_rect tt) as [[s' l] o] eqn:HC.
  destruct H as [H _]. cbn [re fst] in H. destruct H as (-> & _ & H3); [lra|].
  exists E, unit_rect, (map qpoint [(1 # 2, 1 # 2)%Q]), s', l.
  split; [split; discriminate|].
  split; [apply qavoids_avoids; reflexivity|].
  split; [rewrite count_qcount; reflexivity|].
  split; [intros k q []; reflexivity|]. auto.
Qed.

Lemma tight_spurious :
  exists (E : env unit) (r : rect) s' l,
    proper r /\ count [] r = 0%nat /\
    (forall k q s, e_est E k q s = (tt, [], Ok (0 + (4 # 5), 0)%Q)) /\
    calcRoots E Simple 1 r tt = (s', l, Done tt) /\ located l = [(center r, 1)].
Proof.
  exists (const_env (0 + (4 # 5))%Q (-1, -1)), unit_rect. eexists. eexists.
  split; [split; discriminate|]. split; [reflexivity|].
  split; [intros k q []; reflexivity|]. split; vm_compute; reflexivity.
Qed.

Lemma newton_incomplete :
  exists (E : env unit) (r : rect) (zeros : list point) s' l,
    proper r /\ count zeros r = 1%nat /\ good_run zeros l /\
    calcRoots E NewtonV 1 r tt = (s', l, Done tt) /\ located l = [].
Proof.
  exists (exact_env [(1 # 40, 1 # 40)%Q] (3, 3)), (mkRect 0 (1 # 20) 0 (1 # 20)),
    (map qpoint [(1 # 40, 1 # 40)%Q]). eexists. eexists.
  split; [split; discriminate|]. split; [rewrite count_qcount; reflexivity|].
  split; [|split; [vm_compute; reflexivity|]].
  - apply good_events. vm_compute. reflexivity.
  - reflexivity.
Qed.

Lemma progress_incomplete :
  exists (E : env unit) (r : rect) s' l,
    proper r /\ e_progress E = true /\ calcRoots E Simple 1 r tt = (s', l, Done tt) /\
    (Qsum (advances_of l) < area r)%Q.
Proof.
  exists (const_env 1 (-1, -1)), unit_rect. eexists. eexists.
  split; [split; discriminate|]. split; [reflexivity|]. split; [vm_compute; reflexivity|].
  vm_compute. reflexivity.
Qed.
