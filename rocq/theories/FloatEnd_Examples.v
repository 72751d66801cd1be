(** A concrete search in binary64 meeting the hypotheses of C68: a double zero at (1+i)/3 and
    a simple one at (5+4i)/3 in [0,2] x [0,2], one decimal searched. *)
From Coq Require Import Reals Qreals Qminmax.
From Verif Require Import PyBase Rounding_Model Rounding_Proofs Container_Model Container_Spec Finder_Model Finder_Spec Finder_Proofs
  Poly_Model Refine_Model Refine_Spec Zeros_Spec Zeros_Proofs Refine_Examples EndToEnd_Model EndToEnd_Spec
  EndToEnd_Proofs EndToEnd_Proofs2 EndToEnd_Examples Float_Model Float_Spec Float_Proofs Float_Proofs2 Float_Proofs3 Float_Proofs4
  FloatGrid_Model FloatGrid_Spec FloatGrid_Proofs FloatCont_Model FloatCont_Spec FloatCont_Proofs
  FloatEnd_Model FloatEnd_Spec FloatEnd_Proofs FloatEnd_Proofs2 FloatEnd_Proofs3 FloatEnd_Proofs4.
Open Scope Z_scope.

Lemma tolerance_scale k p t : -1022 <= k -> tolerance64 k p t -> scale k t (pow10 (- p)).
Proof.
  intros Hk ([D C] & L & H). constructor; try assumption. apply pow10_pos.
Qed.

Lemma pow10_mono a b : a <= b -> (pow10 a <= pow10 b)%Q.
Proof.
  intro H. replace b with (a + (b - a)) by lia. rewrite pow10_plus.
  rewrite <- (Qmult_1_r (pow10 a)) at 1. apply Qmult_le_l; [apply pow10_pos|].
  apply Rle_Qle. rewrite Q2R_pow10_nonneg by lia. replace (Q2R 1) with 1%R by (unfold Q2R; cbn; field).
  apply IZR_le. pose proof (Z.pow_pos_nonneg 10 (b - a)). lia.
Qed.

(** Correctly rounded powers of ten qualify. *)
Lemma power_of_ten_rnd64 p : p <= 300 -> power_of_ten p (rnd64 (pow10 (- p))).
Proof.
  intro Hp. split; [apply is_double_iff, (rnd_idem _ rounding64)|].
  pose proof (pow10_pos (- p)) as P0.
  assert (A : (Qabs (pow10 (- p)) == pow10 (- p))%Q) by (apply Qabs_pos, Qlt_le_weak, P0).
  assert (B : (2 ^ (-1022) <= pow10 (- p))%Q).
  { apply Qle_trans with (pow10 (- 300)); [apply Qle_bool_iff; vm_compute; reflexivity|].
    apply pow10_mono. lia. }
  rewrite <- A in B. apply rnd64_relative in B. rewrite A in B.
  eapply Qle_trans; [exact B|]. apply Qmult_le_compat_r; [|apply Qlt_le_weak, P0].
  apply Qle_bool_iff. vm_compute. reflexivity.
Qed.

Definition tenth : Q := rnd64 (pow10 (- 1)).

Lemma tenth_tolerance : tolerance64 2 1 tenth.
Proof.
  split; [apply (power_of_ten_rnd64 1); lia|].
  split; apply Qle_bool_iff; vm_compute; reflexivity.
Qed.

Lemma cells64_double tx ty r q : double_rect r -> cell64 tx ty r q -> double_rect q.
Proof.
  intros Hr H. assert (M : forall a b, is_double (mid64 a b)) by (intros; apply is_double_iff, (rnd_idem _ rounding64)).
  induction H as [|q H (A & B & C & D) _|q H (A & B & C & D) _|q H (A & B & C & D) _|q H (A & B & C & D) _];
    [exact Hr|..]; unfold double_rect; cbn [x1 x2 y1 y2]; repeat split; try assumption; apply M.
Qed.

Lemma double_compat a b : (a == b)%Q -> is_double a -> is_double b.
Proof.
  intros E H. apply is_double_iff in H. apply is_double_iff. unfold representable in *.
  rewrite <- (rnd_eq _ rounding64 _ _ E). rewrite H. exact E.
Qed.

Lemma double_strict a b z : is_double a -> is_double b -> ~ is_double z ->
  (Q2R a <= Q2R z <= Q2R b)%R -> (Q2R a < Q2R z < Q2R b)%R.
Proof.
  intros Ha Hb Hz [L U]. split; apply Rnot_le_lt; intro C; apply Hz.
  - apply (double_compat a); [|exact Ha]. apply Rle_Qle in L, C. apply Qle_antisym; assumption.
  - apply (double_compat b); [|exact Hb]. apply Rle_Qle in U, C. apply Qle_antisym; assumption.
Qed.

Lemma thirds_not_double z : In z demo_qzeros -> ~ is_double (re z) /\ ~ is_double (im z).
Proof.
  intros [<-|[<-|[<-|[]]]]; split; intro H; apply is_double_iff in H; vm_compute in H; discriminate H.
Qed.

Lemma demo_reliable64 tx ty r : double_rect r -> reliable64 (exact_env demo_qzeros (1, 1)) demo_zeros tx ty r.
Proof.
  intros Hr q s Hq. pose proof (cells64_double tx ty r q Hr Hq) as (A & B & C & D). split.
  - intros z Hz [Zx Zy]. unfold demo_zeros in Hz. apply in_map_iff in Hz. destruct Hz as (w & <- & Hw).
    destruct (thirds_not_double w Hw) as [T1 T2]. split; cbn [fst snd qpoint] in *; apply double_strict; assumption.
  - exists tt, [], (inject_Z (Z.of_nat (qcount demo_qzeros q)), 0%Q).
    split; [reflexivity|]. split; [|intros c []].
    unfold demo_zeros. rewrite count_qcount. unfold re. cbn [fst].
    setoid_replace (inject_Z (Z.of_nat (qcount demo_qzeros q)) - inject_Z (Z.of_nat (qcount demo_qzeros q)))%Q
      with 0%Q by ring. discriminate.
Qed.

Definition demo_x64 : rctx := fserial_context rnd64 tenth tenth demo_f None (0, 0) (2, 0)%Q (0, 2)%Q None.

Lemma demo_x64_double : double_rect (rect_of demo_x64).
Proof. apply frect_double. Qed.

Lemma demo_jobs64_double job : In job (fcreateRootJobs rnd64 2 demo_x64) -> double_rect (rect_of job).
Proof.
  assert (G : forall q, In q (map rect_of (fcreateRootJobs rnd64 2 demo_x64)) -> double_rect q).
  { set (l := map rect_of (fcreateRootJobs rnd64 2 demo_x64)). vm_compute in l.
    intros q Hq. unfold l in Hq.
    repeat (destruct Hq as [<-|Hq]); [..|destruct Hq];
      unfold double_rect; cbn [x1 x2 y1 y2]; repeat split; apply is_double_iff; vm_compute; reflexivity. }
  intro H. apply G. apply in_map. exact H.
Qed.

Lemma demo_separated64 : separated (5 / 2) (1, 1) demo_zeros /\ separated (13 / 10) (0, 0) demo_zeros.
Proof.
  assert (E1 : Q2R (pow10 (- (1))) = (1 / 10)%R) by (vm_compute (pow10 _); unfold Q2R; cbn [Qnum Qden]; reflexivity).
  assert (E0 : Q2R (pow10 (- (0))) = 1%R) by (vm_compute (pow10 _); unfold Q2R; cbn [Qnum Qden]; field).
  assert (A : Q2R (1 # 3) = (1 / 3)%R) by reflexivity.
  assert (B : Q2R (5 # 3) = (5 / 3)%R) by reflexivity.
  split; intros z1 z2 H1 H2; cbn [fst snd]; rewrite ?E1, ?E0; intros X _;
    destruct H1 as [<-|[<-|[<-|[]]]]; destruct H2 as [<-|[<-|[<-|[]]]]; try reflexivity; exfalso;
    revert X; unfold qpoint, re; cbn [fst snd]; rewrite A, B; unfold Rabs; destruct (Rcase_abs _); Lra.lra.
Qed.

Lemma demo_output64 :
  reported_pairs (fun l => l) (fst (fcalculateRoots rnd64 py_round tenth tenth demo_f None (0, 0)
    (fargument_algorithm rnd64 tenth tenth (exact_env demo_qzeros (1, 1)) Simple 15 (fun _ => true) tt)
    (2, 0)%Q (0, 2)%Q None (rc_init None (3, 3)))) =
  [(rnd64 (4 # 10), rnd64 (3 # 10), 2); (rnd64 (17 # 10), rnd64 (13 # 10), 1)].
Proof. vm_compute. reflexivity. Qed.

Lemma demo_below64 : below (2 - 1) (2, 0)%Q /\ below (2 - 1) (0, 2)%Q.
Proof. repeat split; apply Qle_bool_iff; vm_compute; reflexivity. Qed.
Lemma demo_halvings64 :
  halvings (Qabs (2 - 0) + 4 * pow10 (- 1)) 1 5 /\ halvings (Qabs (0 - 2) + 8 * pow10 (- 1)) 1 5.
Proof. split; vm_compute; reflexivity. Qed.
