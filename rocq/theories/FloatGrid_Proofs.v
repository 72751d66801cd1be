(** Floating point: widened domain and job grid. *)
From Coq Require Import Reals Qreals Qminmax.
From Flocq Require Import Core Relative.
From Verif Require Import PyBase Container_Model Rounding_Model Refine_Model Refine_Spec Zeros_Spec Finder_Model
  Refine_Proofs2 EndToEnd_Model Float_Model Float_Spec Float_Proofs Float_Proofs2 Float_Proofs3 Float_Proofs4
  FloatGrid_Model FloatGrid_Spec.
From Coq Require Import Lqa.
Open Scope Z_scope.

(** ** Tiling by a product grid *)
Section Product.
  Variables (px py : nat -> Q) (n : nat).
  Hypothesis Hn : (1 <= n)%nat.
  Hypothesis Mx : forall i, (i < n)%nat -> (px i <= px (i + 1)%nat)%Q.
  Hypothesis My : forall i, (i < n)%nat -> (py i <= py (i + 1)%nat)%Q.
  Definition grid_cell (i j : nat) : rect := mkRect (px i) (px (i + 1)) (py j) (py (j + 1)).
  Definition grid : list rect := flat_map (fun i => map (grid_cell i) (seq 0 n)) (seq 0 n).
  Definition whole : rect := mkRect (px 0%nat) (px n) (py 0%nat) (py n).

  Lemma mono_all (p : nat -> Q) : (forall i, (i < n)%nat -> (p i <= p (i + 1)%nat)%Q) ->
    forall i k, (i <= k)%nat -> (k <= n)%nat -> (p i <= p k)%Q.
  Proof.
    intros M i k H. induction H as [|k H IH]; intro K; [apply Qle_refl|].
    eapply Qle_trans; [apply IH; lia|]. replace (S k) with (k + 1)%nat by lia. apply M. lia.
  Qed.
  Lemma locate (p : nat -> Q) v : (p 0%nat <= v <= p n)%Q ->
    exists i, (i < n)%nat /\ (p i <= v <= p (i + 1)%nat)%Q.
  Proof.
    intros [L U].
    assert (G : forall m, (m <= n)%nat -> (v <= p m)%Q ->
       m = O \/ exists i, (i < n)%nat /\ (p i <= v <= p (i + 1)%nat)%Q).
    { induction m as [|m IH]; intros Hm Hv; [left; reflexivity|].
      destruct (Qlt_le_dec (p m) v) as [C|C].
      - right. exists m. split; [lia|]. rewrite Nat.add_1_r. split; [apply Qlt_le_weak|]; assumption.
      - destruct (IH ltac:(lia) C) as [->|X]; [|right; exact X]. right.
        exists O. split; [lia|]. split; [exact L|exact Hv]. }
    destruct (G n (le_n n) U) as [E|X]; [lia|exact X].
  Qed.
  Lemma in_grid q : In q grid <-> exists i j, (i < n)%nat /\ (j < n)%nat /\ q = grid_cell i j.
  Proof.
    unfold grid. rewrite in_flat_map. split.
    - intros (i & Hi & H). apply in_map_iff in H. destruct H as (j & <- & Hj).
      apply in_seq in Hi, Hj. exists i, j. split; [lia|]. split; [lia|reflexivity].
    - intros (i & j & Hi & Hj & ->). exists i. split; [apply in_seq; lia|].
      apply in_map, in_seq. lia.
  Qed.
  Lemma FOP_app {A} (R : A -> A -> Prop) l1 l2 : ForallOrdPairs R l1 -> ForallOrdPairs R l2 ->
    (forall a b, In a l1 -> In b l2 -> R a b) -> ForallOrdPairs R (l1 ++ l2).
  Proof.
    induction l1 as [|a l1 IH]; intros H1 H2 H; [exact H2|]. inversion H1; subst. cbn.
    constructor.
    - apply Forall_app. split; [assumption|]. apply Forall_forall. intros b Hb. apply H; [left; reflexivity|exact Hb].
    - apply IH; [assumption|assumption|]. intros x y Hx Hy. apply H; [right; exact Hx|exact Hy].
  Qed.
  Lemma slabs_x i k j j' : (i < k)%nat -> (k < n)%nat -> interiors_disjoint (grid_cell i j) (grid_cell k j').
  Proof.
    intros H K z [[A _] [B _]]. cbn in A, B.
    pose proof (mono_all px Mx (i + 1) k ltac:(lia) ltac:(lia)). lra.
  Qed.
  Lemma slabs_y i k j j' : (j < j')%nat -> (j' < n)%nat -> interiors_disjoint (grid_cell i j) (grid_cell k j').
  Proof.
    intros H K z [[_ A] [_ B]]. cbn in A, B.
    pose proof (mono_all py My (j + 1) j' ltac:(lia) ltac:(lia)). lra.
  Qed.
  Lemma row_fop i m j0 : (j0 + m <= n)%nat ->
    ForallOrdPairs interiors_disjoint (map (grid_cell i) (seq j0 m)).
  Proof.
    revert j0. induction m as [|m IH]; intros j0 H; cbn; constructor.
    - apply Forall_forall. intros q Hq. apply in_map_iff in Hq. destruct Hq as (j & <- & Hj).
      apply in_seq in Hj. apply slabs_y; lia.
    - apply IH. lia.
  Qed.
  Lemma rows_fop m i0 : (i0 + m <= n)%nat ->
    ForallOrdPairs interiors_disjoint (flat_map (fun i => map (grid_cell i) (seq 0 n)) (seq i0 m)).
  Proof.
    revert i0. induction m as [|m IH]; intros i0 H; cbn [seq flat_map]; [constructor|].
    apply FOP_app; [apply row_fop; lia|apply IH; lia|].
    intros a b Ha Hb. apply in_map_iff in Ha. destruct Ha as (j & <- & Hj).
    apply in_flat_map in Hb. destruct Hb as (i & Hi & Hb). apply in_map_iff in Hb. destruct Hb as (j' & <- & Hj').
    apply in_seq in Hi, Hj, Hj'. apply slabs_x; lia.
  Qed.
  Lemma Qsum_app l1 l2 : (Qsum (l1 ++ l2) == Qsum l1 + Qsum l2)%Q.
  Proof. induction l1 as [|a l1 IH]; unfold Qsum in *; cbn [app fold_right]; [ring|]. rewrite IH. ring. Qed.
  Lemma row_size i m j0 :
    (Qsum (map size (map (grid_cell i) (seq j0 m))) == (px (i + 1)%nat - px i) * (py (j0 + m)%nat - py j0))%Q.
  Proof.
    revert j0. induction m as [|m IH]; intro j0; unfold Qsum in *; cbn [seq map fold_right].
    - rewrite Nat.add_0_r. ring.
    - rewrite IH. unfold size, grid_cell. cbn [x1 x2 y1 y2].
      rewrite !(Nat.add_1_r j0). replace (j0 + S m)%nat with (S j0 + m)%nat by lia. ring.
  Qed.
  Lemma rows_size m i0 :
    (Qsum (map size (flat_map (fun i => map (grid_cell i) (seq 0 n)) (seq i0 m)))
       == (px (i0 + m)%nat - px i0) * (py n - py 0%nat))%Q.
  Proof.
    revert i0. induction m as [|m IH]; intro i0; cbn [seq flat_map].
    - rewrite Nat.add_0_r. cbn [map Qsum fold_right]. ring.
    - rewrite map_app, Qsum_app, row_size, IH. rewrite !(Nat.add_1_r i0).
      replace (i0 + S m)%nat with (S i0 + m)%nat by lia. cbn [Nat.add]. ring.
  Qed.
  Lemma grid_tiles : tiles whole grid.
  Proof.
    unfold tiles. split; [|split; [|split]].
    - intros z [Hx Hy]. cbn in Hx, Hy.
      destruct (locate px _ Hx) as (i & Hi & I). destruct (locate py _ Hy) as (j & Hj & J).
      exists (grid_cell i j). split; [apply in_grid; eauto|]. split; assumption.
    - intros q Hq. apply in_grid in Hq. destruct Hq as (i & j & Hi & Hj & ->).
      unfold sub_rect, proper, whole, grid_cell. cbn [x1 x2 y1 y2].
      pose proof (mono_all px Mx 0 i ltac:(lia) ltac:(lia)).
      pose proof (mono_all px Mx (i + 1) n ltac:(lia) ltac:(lia)).
      pose proof (mono_all py My 0 j ltac:(lia) ltac:(lia)).
      pose proof (mono_all py My (j + 1) n ltac:(lia) ltac:(lia)).
      pose proof (Mx i Hi). pose proof (My j Hj). tauto.
    - apply rows_fop. lia.
    - unfold grid. rewrite rows_size. unfold size, whole. cbn [x1 x2 y1 y2 Nat.add]. reflexivity.
  Qed.
End Product.

(** ** The job grid *)
Lemma flinspace_length rnd a b n : List.length (flinspace rnd a b n) = S n.
Proof. unfold flinspace. rewrite map_length, seq_length. reflexivity. Qed.
Lemma flinspace_nth rnd a b n i : (i <= n)%nat -> nth i (flinspace rnd a b n) 0%Q = flinspace_pt rnd a b n i.
Proof.
  intro H. unfold flinspace. rewrite (nth_indep _ 0%Q (flinspace_pt rnd a b n 0)).
  - rewrite map_nth, seq_nth by lia. reflexivity.
  - rewrite map_length, seq_length. lia.
Qed.

Lemma fjobs_grid rnd n x :
  map rect_of (fcreateRootJobs rnd n x) =
  grid (flinspace_pt rnd (fst (cx_reRan x)) (snd (cx_reRan x)) n)
       (flinspace_pt rnd (fst (cx_imRan x)) (snd (cx_imRan x)) n) n.
Proof.
  unfold fcreateRootJobs, grid. rewrite !flinspace_length. cbn [Nat.sub]. rewrite Nat.sub_0_r.
  assert (G : forall m i0, (i0 + m <= n)%nat ->
    map rect_of (flat_map (fun i => map (fun j => mkRctx (cx_f x) (cx_df x) (cx_precision x)
          (nth i (flinspace rnd (fst (cx_reRan x)) (snd (cx_reRan x)) n) 0,
           nth (i + 1) (flinspace rnd (fst (cx_reRan x)) (snd (cx_reRan x)) n) 0)%Q
          (nth j (flinspace rnd (fst (cx_imRan x)) (snd (cx_imRan x)) n) 0,
           nth (j + 1) (flinspace rnd (fst (cx_imRan x)) (snd (cx_imRan x)) n) 0)%Q) (seq 0 n)) (seq i0 m)) =
    flat_map (fun i => map (grid_cell (flinspace_pt rnd (fst (cx_reRan x)) (snd (cx_reRan x)) n)
       (flinspace_pt rnd (fst (cx_imRan x)) (snd (cx_imRan x)) n) i) (seq 0 n)) (seq i0 m)).
  { induction m as [|m IH]; intros i0 H; cbn [seq flat_map map]; [reflexivity|].
    rewrite map_app, IH by lia. f_equal. rewrite map_map. apply map_ext_in. intros j Hj.
    apply in_seq in Hj. unfold rect_of, grid_cell. cbn [cx_reRan cx_imRan fst snd].
    rewrite !flinspace_nth by lia. reflexivity. }
  apply G. lia.
Qed.

Lemma Qnat_pos n : (1 <= n)%nat -> (0 < inject_Z (Z.of_nat n))%Q.
Proof. intro H. change 0%Q with (inject_Z 0). rewrite <- Zlt_Qlt. lia. Qed.

Section Points.
  Variable rnd : Q -> Q.
  Hypothesis HR : rounding rnd.
  Variables (a b : Q) (n : nat).
  Hypothesis Hn : (1 <= n)%nat.
  Hypothesis Hab : (a <= b)%Q.
  Hypothesis Ra : representable rnd a.
  Notation pt := (flinspace_pt rnd a b n).

  Lemma delta_nonneg : (0 <= rnd (b - a))%Q.
  Proof. apply (rnd_ge rnd HR); [apply (rnd_zero _ HR)|]. lra. Qed.
  Lemma step_nonneg : (0 <= rnd (rnd (b - a) / inject_Z (Z.of_nat n)))%Q.
  Proof.
    apply (rnd_ge rnd HR); [apply (rnd_zero _ HR)|]. pose proof delta_nonneg.
    apply Qle_shift_div_l; [apply Qnat_pos, Hn|]. lra.
  Qed.
  Lemma pt_0 : (pt 0 == a)%Q.
  Proof.
    unfold flinspace_pt. destruct n as [|m]; [lia|]. cbn [Nat.eqb].
    set (step := rnd (rnd (b - a) / _)).
    assert (Z0 : (rnd 0 == 0)%Q) by apply (rnd_zero _ HR).
    assert (R0 : forall x, (x == 0 -> rnd (rnd x + a) == a)%Q).
    { intros x Hx. transitivity (rnd a); [|exact Ra]. apply (rnd_eq rnd HR).
      pose proof (rnd_eq rnd HR x 0 Hx). lra. }
    change (inject_Z (Z.of_nat 0)) with 0%Q.
    destruct (Qeq_bool step 0); apply R0.
    - assert (E : (rnd (0 / inject_Z (Z.of_nat (S m))) == 0)%Q).
      { transitivity (rnd 0); [|exact Z0]. apply (rnd_eq rnd HR). unfold Qdiv. ring. }
      rewrite E. ring.
    - ring.
  Qed.
  Lemma pt_n : pt n = b.
  Proof. unfold flinspace_pt. rewrite Nat.eqb_refl. reflexivity. Qed.
  Lemma Qnat_le i k : (i <= k)%nat -> (inject_Z (Z.of_nat i) <= inject_Z (Z.of_nat k))%Q.
  Proof. intro H. rewrite <- Zle_Qle. lia. Qed.
  Lemma pt_mono i : (i + 1 < n)%nat -> (pt i <= pt (i + 1)%nat)%Q.
  Proof.
    intro H. unfold flinspace_pt.
    destruct (Nat.eqb_spec i n); [lia|]. destruct (Nat.eqb_spec (i + 1) n); [lia|].
    pose proof step_nonneg as S0. pose proof delta_nonneg as D0. pose proof (Qnat_le i (i + 1) ltac:(lia)) as L.
    set (step := rnd (rnd (b - a) / _)) in *.
    pose proof (rnd_mono _ HR) as M.
    destruct (Qeq_bool step 0); apply M, Qplus_le_compat; try apply Qle_refl; apply M.
    - apply Qmult_le_compat_r; [|exact D0]. apply M. unfold Qdiv.
      apply Qmult_le_compat_r; [exact L|]. apply Qinv_le_0_compat, Qlt_le_weak, Qnat_pos, Hn.
    - apply Qmult_le_compat_r; assumption.
  Qed.
  Lemma pt_rep i : representable rnd b -> representable rnd (pt i).
  Proof.
    intro Rb. unfold flinspace_pt. destruct (Nat.eqb i n); [exact Rb|].
    destruct (Qeq_bool _ _); apply (rnd_rep rnd HR).
  Qed.

  (** The last computed point does not pass the end. *)
  Lemma pt_last u :
    representable rnd b -> (0 <= u)%Q -> (u <= 1 # 4)%Q ->
    (rnd (b - a) <= (1 + u) * (b - a))%Q ->
    (rnd (rnd (b - a) / inject_Z (Z.of_nat n)) <= (1 + u) * (rnd (b - a) / inject_Z (Z.of_nat n)))%Q ->
    (forall k, let t := (inject_Z k * rnd (rnd (b - a) / inject_Z (Z.of_nat n)))%Q in
       0 <= k -> (rnd t <= (1 + u) * t)%Q) ->
    (4 * u * inject_Z (Z.of_nat n) <= 1)%Q -> ((a < b)%Q -> ~ (rnd (rnd (b - a) / inject_Z (Z.of_nat n)) == 0)%Q) ->
    forall i, (i < n)%nat -> (pt i <= b)%Q.
  Proof.
    intros Rb U0 U1 E1 E2 E3 EU NZ i Hi. unfold flinspace_pt. destruct (Nat.eqb_spec i n) as [->|_]; [apply Qle_refl|].
    pose proof delta_nonneg as D0. pose proof step_nonneg as S0.
    set (delta := rnd (b - a)) in *. set (N := inject_Z (Z.of_nat n)) in *.
    assert (NP : (0 < N)%Q) by (apply Qnat_pos, Hn).
    set (step := rnd (delta / N)) in *.
    assert (W : (delta == 0 \/ a < b)%Q).
    { destruct (Qlt_le_dec a b) as [L|L]; [right; exact L|left].
      transitivity (rnd 0); [|apply (rnd_zero _ HR)]. apply (rnd_eq rnd HR). lra. }
    destruct W as [W|W].
    { assert (St : (step == 0)%Q).
      { transitivity (rnd 0); [|apply (rnd_zero _ HR)]. apply (rnd_eq rnd HR). rewrite W. unfold Qdiv. ring. }
      destruct (Qeq_bool step 0) eqn:B; [|apply Qeq_bool_iff in St; congruence].
      apply (rnd_le rnd HR); [exact Rb|].
      assert (Z : (rnd (rnd (inject_Z (Z.of_nat i) / N) * delta) == 0)%Q).
      { transitivity (rnd 0); [|apply (rnd_zero _ HR)]. apply (rnd_eq rnd HR). rewrite W. ring. }
      rewrite Z. lra. }
    specialize (NZ W). destruct (Qeq_bool step 0) eqn:B; [apply Qeq_bool_iff in B; contradiction|].
    apply (rnd_le rnd HR); [exact Rb|].
    specialize (E3 (Z.of_nat i) ltac:(lia)). cbv zeta in E3.
    set (I := inject_Z (Z.of_nat i)) in *.
    assert (I0 : (0 <= I)%Q) by (unfold I; change 0%Q with (inject_Z 0); rewrite <- Zle_Qle; lia).
    assert (IN : (I + 1 <= N)%Q).
    { unfold I, N. change 1%Q with (inject_Z 1). rewrite <- inject_Z_plus, <- Zle_Qle. lia. }
    assert (G : ((1 + u) * (I * step) <= b - a)%Q); [|lra].
    assert (G1 : (I * step <= I * ((1 + u) * ((1 + u) * (b - a) / N)))%Q).
    { rewrite !(Qmult_comm I). apply Qmult_le_compat_r; [|exact I0].
      eapply Qle_trans; [exact E2|]. rewrite !(Qmult_comm (1 + u)). apply Qmult_le_compat_r; [|lra].
      unfold Qdiv. apply Qmult_le_compat_r; [|apply Qinv_le_0_compat, Qlt_le_weak, NP]. lra. }
    assert (G2 : ((1 + u) * (I * step) <= (1 + u) * (I * ((1 + u) * ((1 + u) * (b - a) / N))))%Q).
    { rewrite !(Qmult_comm (1 + u) (I * _)). apply Qmult_le_compat_r; [exact G1|lra]. }
    eapply Qle_trans; [exact G2|].
    setoid_replace ((1 + u) * (I * ((1 + u) * ((1 + u) * (b - a) / N))))%Q
      with (((1 + u) * (1 + u) * (1 + u) * I) * (b - a) / N)%Q by (field; lra).
    apply Qle_shift_div_r; [exact NP|].
    rewrite (Qmult_comm (b - a) N). apply Qmult_le_compat_r; [|lra].
    assert (C : ((1 + u) * (1 + u) * (1 + u) <= 1 + 4 * u)%Q).
    { assert (u * u <= (1 # 4) * u)%Q by (apply Qmult_le_compat_r; assumption).
      assert (u * u * u <= (1 # 4) * u * u)%Q by (apply Qmult_le_compat_r; [lra|exact U0]).
      setoid_replace ((1 + u) * (1 + u) * (1 + u))%Q with (1 + 3 * u + 3 * (u * u) + u * u * u)%Q by ring.
      setoid_replace ((1 # 4) * u * u)%Q with ((1 # 4) * (u * u))%Q in H0 by ring. lra. }
    assert (C2 : ((1 + u) * (1 + u) * (1 + u) * I <= (1 + 4 * u) * I)%Q) by (apply Qmult_le_compat_r; assumption).
    assert (C3 : (4 * u * I <= 4 * u * N)%Q).
    { rewrite !(Qmult_comm (4 * u)). apply Qmult_le_compat_r; lra. }
    lra.
  Qed.
End Points.

(** ** Binary64 *)
Lemma rnd64_relative x : (2 ^ (-1022) <= Qabs x)%Q -> (Qabs (rnd64 x - x) <= 2 ^ (-53) * Qabs x)%Q.
Proof.
  intro H. apply Qle_Rle in H. rewrite Q2R_Qpower, Q2R_abs in H. apply Rle_Qle.
  rewrite Q2R_abs, Q2R_minus, Q2R_mult, Q2R_Qpower, Q2R_abs, rnd64_flocq.
  eapply Rle_trans; [apply relative_error_N_FLT; [unfold Prec_gt_0; lia|exact H]|].
  apply Rmult_le_compat_r; [apply Rabs_pos|].
  replace (- (53) + 1)%Z with (-53 + 1)%Z by lia. rewrite bpow_plus. change (bpow radix2 1) with 2%R. Lra.lra.
Qed.
Lemma Qpow2_pos e : (0 < 2 ^ e)%Q.
Proof. rewrite <- pow2_Qpower. apply pow2_pos. Qed.
Lemma Qpow2_S e : (2 ^ (e + 1) == 2 * 2 ^ e)%Q.
Proof. rewrite Qpower_plus by discriminate. change (2 ^ 1)%Q with 2%Q. ring. Qed.
Lemma rnd64_relative_up x : (2 ^ (-1022) <= x)%Q -> (rnd64 x <= (1 + 2 ^ (-53)) * x)%Q.
Proof.
  intro H. pose proof (Qpow2_pos (-1022)) as P.
  assert (A : (Qabs x == x)%Q) by (apply Qabs_pos; eapply Qle_trans; [apply Qlt_le_weak, P|exact H]).
  pose proof (rnd64_relative x) as R. rewrite A in R. specialize (R H).
  apply Qabs_Qle_condition in R. set (e := (2 ^ (-53))%Q) in *. clearbody e. lra.
Qed.

Lemma points64 a b n : (1 <= n)%nat -> (Z.of_nat n <= 2 ^ 51) -> wide n (a, b) ->
  is_double a -> is_double b ->
  forall i, (i < n)%nat -> (flinspace_pt rnd64 a b n i <= flinspace_pt rnd64 a b n (i + 1))%Q.
Proof.
  intros Hn Hn2 W Da Db i Hi. apply is_double_iff in Da, Db. cbn [wide fst snd] in W.
  assert (Hab : (a <= b)%Q).
  { destruct W as [W|W]; cbn [fst snd] in W; [rewrite W; apply Qle_refl|].
    pose proof (Qpow2_pos (-1022)). pose proof (Qnat_pos n Hn).
    assert (0 <= inject_Z (Z.of_nat n) * 2 ^ (-1022))%Q; [|lra].
    apply Qmult_le_0_compat; apply Qlt_le_weak; assumption. }
  destruct (Nat.eq_dec (i + 1) n) as [E|E]; [|apply (pt_mono rnd64 rounding64 a b n Hn Hab); lia].
  rewrite E, pt_n.
  pose proof (Qnat_pos n Hn) as NP.
  pose proof (Qpow2_pos (-1022)) as P22. pose proof (Qpow2_pos (-53)) as P53.
  assert (Z0 : (rnd64 0 == 0)%Q) by reflexivity.
  assert (Big : (a < b)%Q -> (inject_Z (Z.of_nat n) * 2 ^ (-1022) <= b - a)%Q).
  { intro L. destruct W as [W|W]; cbn [fst snd] in W; [exfalso; revert L; rewrite W; apply Qlt_irrefl|exact W]. }
  assert (One : (1 <= inject_Z (Z.of_nat n))%Q) by (change 1%Q with (inject_Z 1); rewrite <- Zle_Qle; lia).
  assert (Rn : representable rnd64 (inject_Z (Z.of_nat n) * 2 ^ (-1022))).
  { apply is_double_iff. exists (Z.of_nat n), (-1022). split; [lia|]. split; [lia|reflexivity]. }
  assert (R22 : representable rnd64 (2 ^ (-1022))).
  { apply is_double_iff. exists 1, (-1022). split; [lia|]. split; [lia|]. ring. }
  assert (Cond : (a < b)%Q ->
     (2 ^ (-1022) <= b - a)%Q /\ (2 ^ (-1022) <= rnd64 (b - a) / inject_Z (Z.of_nat n))%Q /\
     (2 ^ (-1022) <= rnd64 (rnd64 (b - a) / inject_Z (Z.of_nat n)))%Q).
  { intro L. specialize (Big L).
    assert (D : (inject_Z (Z.of_nat n) * 2 ^ (-1022) <= rnd64 (b - a))%Q)
      by (apply (rnd_ge rnd64 rounding64); assumption).
    assert (G2 : (2 ^ (-1022) <= rnd64 (b - a) / inject_Z (Z.of_nat n))%Q).
    { apply Qle_shift_div_l; [exact NP|]. rewrite Qmult_comm. exact D. }
    split; [|split; [exact G2|apply (rnd_ge rnd64 rounding64); assumption]].
    eapply Qle_trans; [|exact Big]. rewrite <- (Qmult_1_l (2 ^ (-1022))) at 1.
    apply Qmult_le_compat_r; [exact One|apply Qlt_le_weak, P22]. }
  assert (Deg : ~ (a < b)%Q -> (rnd64 (b - a) == 0)%Q /\ (rnd64 (rnd64 (b - a) / inject_Z (Z.of_nat n)) == 0)%Q).
  { intro L. assert (D : (rnd64 (b - a) == 0)%Q).
    { transitivity (rnd64 0); [apply (rnd_eq rnd64 rounding64); lra|exact Z0]. }
    split; [exact D|]. transitivity (rnd64 0); [apply (rnd_eq rnd64 rounding64)|exact Z0].
    rewrite D. unfold Qdiv. ring. }
  assert (NZ : (a < b)%Q -> ~ (rnd64 (rnd64 (b - a) / inject_Z (Z.of_nat n)) == 0)%Q).
  { intros L C. destruct (Cond L) as (_ & _ & G). rewrite C in G. apply Qle_not_lt in G. apply G, P22. }
  apply (pt_last rnd64 rounding64 a b n Hn Hab (2 ^ (-53))); try assumption.
  - apply Qlt_le_weak, P53.
  - apply Qle_bool_iff. reflexivity.
  - destruct (Qlt_le_dec a b) as [L|L]; [apply rnd64_relative_up, Cond, L|].
    destruct (Deg ltac:(lra)) as [D _]. rewrite D.
    setoid_replace (b - a)%Q with 0%Q by lra. ring_simplify. apply Qle_refl.
  - destruct (Qlt_le_dec a b) as [L|L]; [apply rnd64_relative_up, Cond, L|].
    destruct (Deg ltac:(lra)) as [D D2]. rewrite D2, D. unfold Qdiv. ring_simplify. apply Qle_refl.
  - intros k t Hk. subst t. destruct (Qlt_le_dec a b) as [L|L].
    + destruct (Cond L) as (_ & _ & G). set (st := rnd64 (rnd64 (b - a) / inject_Z (Z.of_nat n))) in *.
      destruct (Z.eq_dec k 0) as [->|K].
      * assert (T : (inject_Z 0 * st == 0)%Q) by ring.
        rewrite (rnd_eq rnd64 rounding64 _ _ T), T, Z0. ring_simplify. apply Qle_refl.
      * apply rnd64_relative_up. eapply Qle_trans; [exact G|]. rewrite <- (Qmult_1_l st) at 1.
        apply Qmult_le_compat_r; [|eapply Qle_trans; [apply Qlt_le_weak, P22|exact G]].
        change 1%Q with (inject_Z 1). rewrite <- Zle_Qle. lia.
    + destruct (Deg ltac:(lra)) as [_ D2]. set (st := rnd64 (rnd64 (b - a) / inject_Z (Z.of_nat n))) in *.
      assert (T : (inject_Z k * st == 0)%Q) by (rewrite D2; ring).
      rewrite (rnd_eq rnd64 rounding64 _ _ T), T, Z0. ring_simplify. apply Qle_refl.
  - assert (T : (inject_Z (Z.of_nat n) <= inject_Z (2 ^ 51))%Q) by (rewrite <- Zle_Qle; exact Hn2).
    apply Qle_trans with (4 * 2 ^ (-53) * inject_Z (2 ^ 51))%Q.
    + rewrite !(Qmult_comm (4 * _)). apply Qmult_le_compat_r; [exact T|].
      apply Qmult_le_0_compat; [discriminate|apply Qlt_le_weak, P53].
    + apply Qle_bool_iff. reflexivity.
Qed.

Lemma tiles_eq r r' l : (x1 r == x1 r')%Q -> (x2 r == x2 r')%Q -> (y1 r == y1 r')%Q -> (y2 r == y2 r')%Q ->
  tiles r l -> tiles r' l.
Proof.
  intros A B C D (T1 & T2 & T3 & T4). split; [|split; [|split]].
  - intros z [Hx Hy]. apply T1. unfold inside. rewrite A, B, C, D. auto.
  - intros a Ha. destruct (T2 a Ha) as [(S1 & S2 & S3 & S4) P]. split; [|exact P].
    unfold sub_rect. rewrite <- A, <- B, <- C, <- D. auto.
  - exact T3.
  - rewrite T4. unfold size. rewrite A, B, C, D. reflexivity.
Qed.

Lemma jobs_tile64 n x : (1 <= n)%nat -> Z.of_nat n <= 2 ^ 51 ->
  double_pair (cx_reRan x) -> double_pair (cx_imRan x) -> wide n (cx_reRan x) -> wide n (cx_imRan x) ->
  tiles (rect_of x) (map rect_of (fcreateRootJobs rnd64 n x)) /\
  (forall job, In job (fcreateRootJobs rnd64 n x) ->
     double_pair (cx_reRan job) /\ double_pair (cx_imRan job) /\
     cx_f job = cx_f x /\ cx_df job = cx_df x /\ cx_precision job = cx_precision x) /\
  List.length (fcreateRootJobs rnd64 n x) = (n * n)%nat.
Proof.
  intros Hn Hn2 [D1 D2] [D3 D4] W1 W2. split; [|split].
  - rewrite fjobs_grid.
    destruct (cx_reRan x) as [a b] eqn:E1. destruct (cx_imRan x) as [c d] eqn:E2. cbn [fst snd] in *.
    assert (AB : (a <= b)%Q) by (destruct W1 as [W|W]; cbn [fst snd] in W;
      [rewrite W; apply Qle_refl|]; pose proof (Qpow2_pos (-1022)); pose proof (Qnat_pos n Hn);
      assert (0 <= inject_Z (Z.of_nat n) * 2 ^ (-1022))%Q by (apply Qmult_le_0_compat; apply Qlt_le_weak; assumption); lra).
    assert (CD : (c <= d)%Q) by (destruct W2 as [W|W]; cbn [fst snd] in W;
      [rewrite W; apply Qle_refl|]; pose proof (Qpow2_pos (-1022)); pose proof (Qnat_pos n Hn);
      assert (0 <= inject_Z (Z.of_nat n) * 2 ^ (-1022))%Q by (apply Qmult_le_0_compat; apply Qlt_le_weak; assumption); lra).
    eapply tiles_eq; [| | | |apply grid_tiles; [exact Hn|apply points64; assumption|apply points64; assumption]];
      unfold whole, rect_of; rewrite ?E1, ?E2; cbn [x1 x2 y1 y2 fst snd];
      apply is_double_iff in D1, D3.
    + apply (pt_0 rnd64 rounding64); assumption.
    + rewrite pt_n. reflexivity.
    + apply (pt_0 rnd64 rounding64); assumption.
    + rewrite pt_n. reflexivity.
  - intros job H. unfold fcreateRootJobs in H. apply in_flat_map in H. destruct H as (i & Hi & H).
    apply in_map_iff in H. destruct H as (j & <- & Hj). cbn [cx_reRan cx_imRan cx_f cx_df cx_precision].
    rewrite flinspace_length in Hi, Hj. apply in_seq in Hi, Hj.
    rewrite !flinspace_nth by lia. unfold double_pair. cbn [fst snd]. rewrite <- !is_double_iff in *.
    assert (K := pt_rep rnd64 rounding64).
    split; [split; apply K; assumption|]. split; [split; apply K; assumption|]. auto.
  - unfold fcreateRootJobs. rewrite !flinspace_length. cbn [Nat.sub]. rewrite Nat.sub_0_r.
    assert (G : forall (A : Type) (g : nat -> nat -> A) m i0,
      List.length (flat_map (fun i => map (g i) (seq 0 n)) (seq i0 m)) = (m * n)%nat).
    { intros A g m. induction m as [|m IH]; intro i0; [reflexivity|]. cbn [seq flat_map].
      rewrite app_length, map_length, seq_length, IH. reflexivity. }
    apply (G _ (fun i j => mkRctx _ _ _ (_, _) (_, _))).
Qed.

(** ** The widened domain *)
Lemma sorted2_cases r : (snd r < fst r)%Q /\ sorted2 r = (snd r, fst r) \/ (fst r <= snd r)%Q /\ sorted2 r = r.
Proof.
  unfold sorted2. destruct (Qltb (snd r) (fst r)) eqn:E.
  - left. split; [apply Qltb_true, E|reflexivity].
  - right. split; [|reflexivity]. apply Qnot_lt_le. intro C. apply Qltb_true in C. congruence.
Qed.
Lemma sorted2_min r : (fst (sorted2 r) == Qmin (fst r) (snd r) /\ snd (sorted2 r) == Qmax (fst r) (snd r))%Q.
Proof.
  destruct (sorted2_cases r) as [[L ->]|[L ->]]; cbn [fst snd].
  - rewrite Q.min_r, Q.max_l by (apply Qlt_le_weak, L). split; reflexivity.
  - rewrite Q.min_l, Q.max_r by exact L. split; reflexivity.
Qed.
Lemma sorted2_double r : double_pair r -> double_pair (sorted2 r).
Proof. intros [A B]. destruct (sorted2_cases r) as [[_ ->]|[_ ->]]; split; assumption. Qed.

Lemma fdesym_eq rnd tx ty reRan imRan : fdesymmetrizeDomain rnd tx ty reRan imRan =
  ((rnd (fst (sorted2 reRan) - rnd (1 * tx)), rnd (snd (sorted2 reRan) + rnd (2 * tx))),
   (rnd (fst (sorted2 imRan) - rnd (3 * ty)), rnd (snd (sorted2 imRan) + rnd (4 * ty))))%Q.
Proof.
  unfold fdesymmetrizeDomain. destruct (sorted2 reRan), (sorted2 imRan). reflexivity.
Qed.

Lemma desym64 tx ty reRan imRan :
  is_double tx -> is_double ty -> (0 <= tx)%Q -> (0 <= ty)%Q -> double_pair reRan -> double_pair imRan ->
  let d := fdesymmetrizeDomain rnd64 tx ty reRan imRan in
  double_pair (fst d) /\ double_pair (snd d) /\
  (fst (fst d) <= Qmin (fst reRan) (snd reRan) /\ Qmax (fst reRan) (snd reRan) <= snd (fst d) /\
   fst (snd d) <= Qmin (fst imRan) (snd imRan) /\ Qmax (fst imRan) (snd imRan) <= snd (snd d))%Q.
Proof.
  intros Dx Dy Px Py Dr Di d. subst d. rewrite fdesym_eq. cbn [fst snd].
  destruct (sorted2_double _ Dr) as [D1 D2]. destruct (sorted2_double _ Di) as [D3 D4].
  destruct (sorted2_min reRan) as [<- <-]. destruct (sorted2_min imRan) as [<- <-].
  rewrite <- is_double_iff in D1, D2, D3, D4.
  unfold double_pair. cbn [fst snd]. rewrite <- !is_double_iff.
  assert (R := rnd_rep rnd64 rounding64).
  assert (N : forall t, (0 <= t -> 0 <= rnd64 t)%Q).
  { intros t Ht. apply (rnd_ge rnd64 rounding64); [apply (rnd_zero _ rounding64)|exact Ht]. }
  split; [split; apply R|]. split; [split; apply R|].
  repeat split.
  - apply (rnd_le rnd64 rounding64); [exact D1|]. specialize (N (1 * tx)%Q ltac:(lra)). lra.
  - apply (rnd_ge rnd64 rounding64); [exact D2|]. specialize (N (2 * tx)%Q ltac:(lra)). lra.
  - apply (rnd_le rnd64 rounding64); [exact D3|]. specialize (N (3 * ty)%Q ltac:(lra)). lra.
  - apply (rnd_ge rnd64 rounding64); [exact D4|]. specialize (N (4 * ty)%Q ltac:(lra)). lra.
Qed.

Lemma moved_down k x t : (-1022 <= k)%Z -> (Qabs x <= 2 ^ k)%Q -> (2 ^ (k - 52) <= t)%Q -> (rnd64 (x - t) < x)%Q.
Proof.
  intros Hk Hx Ht.
  assert (M : (rnd64 (x - t) <= rnd64 (x - 2 ^ (k - 52)))%Q) by (apply rnd64_mono; lra).
  assert (U : (2 ^ (k - 52) <= 2 ^ k)%Q).
  { apply Rle_Qle. rewrite !Q2R_Qpower. apply bpow_le. lia. }
  pose proof (Qpow2_pos (k - 53)) as P.
  assert (A : (Qabs (rnd64 (x - 2 ^ (k - 52)) - (x - 2 ^ (k - 52))) <= pow2 (k - 53))%Q).
  { apply (accurate64 k Hk). rewrite pow2_Qpower. apply Qabs_Qle_condition in Hx. apply Qabs_Qle_condition.
    pose proof (Qpow2_pos (k - 52)). set (w := (2 ^ k)%Q) in *. set (v := (2 ^ (k - 52))%Q) in *. lra. }
  rewrite pow2_Qpower in A. apply Qabs_Qle_condition in A.
  assert (E : (2 ^ (k - 52) == 2 * 2 ^ (k - 53))%Q).
  { replace (k - 52) with (k - 53 + 1) by lia. apply Qpow2_S. }
  set (v := (2 ^ (k - 52))%Q) in *. set (w := (2 ^ (k - 53))%Q) in *. clearbody v w. lra.
Qed.
Lemma moved_up k x t : (-1022 <= k)%Z -> (Qabs x <= 2 ^ k)%Q -> (2 ^ (k - 52) <= t)%Q -> (x < rnd64 (x + t))%Q.
Proof.
  intros Hk Hx Ht.
  assert (M : (rnd64 (x + 2 ^ (k - 52)) <= rnd64 (x + t))%Q) by (apply rnd64_mono; lra).
  assert (U : (2 ^ (k - 52) <= 2 ^ k)%Q).
  { apply Rle_Qle. rewrite !Q2R_Qpower. apply bpow_le. lia. }
  pose proof (Qpow2_pos (k - 53)) as P.
  assert (A : (Qabs (rnd64 (x + 2 ^ (k - 52)) - (x + 2 ^ (k - 52))) <= pow2 (k - 53))%Q).
  { apply (accurate64 k Hk). rewrite pow2_Qpower. apply Qabs_Qle_condition in Hx. apply Qabs_Qle_condition.
    pose proof (Qpow2_pos (k - 52)). set (w := (2 ^ k)%Q) in *. set (v := (2 ^ (k - 52))%Q) in *. lra. }
  rewrite pow2_Qpower in A. apply Qabs_Qle_condition in A.
  assert (E : (2 ^ (k - 52) == 2 * 2 ^ (k - 53))%Q).
  { replace (k - 52) with (k - 53 + 1) by lia. apply Qpow2_S. }
  set (v := (2 ^ (k - 52))%Q) in *. set (w := (2 ^ (k - 53))%Q) in *. clearbody v w. lra.
Qed.

Lemma desym64_strict k tx ty reRan imRan :
  (-1022 <= k)%Z -> is_double tx -> is_double ty -> (2 ^ (k - 52) <= tx)%Q -> (2 ^ (k - 52) <= ty)%Q ->
  double_pair reRan -> double_pair imRan -> below k reRan -> below k imRan ->
  let d := fdesymmetrizeDomain rnd64 tx ty reRan imRan in
  (fst (fst d) < Qmin (fst reRan) (snd reRan) /\ Qmax (fst reRan) (snd reRan) < snd (fst d) /\
   fst (snd d) < Qmin (fst imRan) (snd imRan) /\ Qmax (fst imRan) (snd imRan) < snd (snd d))%Q.
Proof.
  intros Hk Dx Dy Tx Ty Dr Di [B1 B2] [B3 B4] d. subst d. rewrite fdesym_eq. cbn [fst snd].
  destruct (sorted2_min reRan) as [<- <-]. destruct (sorted2_min imRan) as [<- <-].
  assert (R : representable rnd64 (2 ^ (k - 52))).
  { apply is_double_iff. exists 1, (k - 52). split; [lia|]. split; [lia|]. ring. }
  pose proof (Qpow2_pos (k - 52)) as P. set (v := (2 ^ (k - 52))%Q) in *.
  assert (N : forall t, (v <= t -> v <= rnd64 t)%Q).
  { intros t Ht. apply (rnd_ge rnd64 rounding64); assumption. }
  assert (S1 : (Qabs (fst (sorted2 reRan)) <= 2 ^ k)%Q /\ (Qabs (snd (sorted2 reRan)) <= 2 ^ k)%Q).
  { destruct (sorted2_cases reRan) as [[_ ->]|[_ ->]]; split; assumption. }
  assert (S2 : (Qabs (fst (sorted2 imRan)) <= 2 ^ k)%Q /\ (Qabs (snd (sorted2 imRan)) <= 2 ^ k)%Q).
  { destruct (sorted2_cases imRan) as [[_ ->]|[_ ->]]; split; assumption. }
  destruct S1 as [S1 S1']. destruct S2 as [S2 S2'].
  repeat split; (apply (moved_down k) || apply (moved_up k)); try assumption; apply N; lra.
Qed.

(** ** The margin is absorbed far from the origin *)
Definition far_request : Q * Q := (inject_Z (2 ^ 53), inject_Z (2 ^ 53 + 2)).
Lemma absorbed64 :
  exists reRan imRan tx ty, double_pair reRan /\ double_pair imRan /\
    tx = rnd64 (pow10 (- 4)) /\ ty = tx /\
    let d := fdesymmetrizeDomain rnd64 tx ty reRan imRan in d = (reRan, imRan).
Proof.
  exists far_request, far_request, (rnd64 (pow10 (- 4))), (rnd64 (pow10 (- 4))).
  assert (D : double_pair far_request) by (split; apply is_double_iff; vm_compute; reflexivity).
  split; [exact D|]. split; [exact D|]. split; [reflexivity|]. split; [reflexivity|].
  vm_compute. reflexivity.
Qed.

(** A narrow interval makes the last cell inverted: the width condition is needed. *)
Lemma inverted64 : exists a b n i, (a < b)%Q /\ is_double a /\ is_double b /\ (i < n)%nat /\
  (flinspace_pt rnd64 a b n (i + 1) < flinspace_pt rnd64 a b n i)%Q.
Proof.
  exists 0%Q, (9 * pow2 (-1074))%Q, 6%nat, 5%nat.
  split; [reflexivity|]. split; [apply is_double_iff; reflexivity|].
  split; [exists 9, (-1074); split; [lia|]; split; [lia|rewrite pow2_Qpower; reflexivity]|].
  split; [lia|]. vm_compute. reflexivity.
Qed.

Lemma grid_demo :
  let t := rnd64 (pow10 (- 7)) in
  let d := fdesymmetrizeDomain rnd64 t t (1, -1)%Q (-1, 1)%Q in
  is_double t /\ (2 ^ (0 - 52) <= t)%Q /\ below 0 (1, -1)%Q /\ double_pair (1, -1)%Q /\
  wide 3 (fst d) /\ wide 3 (snd d) /\
  ~ (nth 1 (flinspace rnd64 (fst (fst d)) (snd (fst d)) 3) 0 == fst (fst d) + (snd (fst d) - fst (fst d)) / 3)%Q.
Proof.
  cbv zeta. split; [apply is_double_iff, (rnd_idem _ rounding64)|].
  split; [apply Qle_bool_iff; vm_compute; reflexivity|].
  split; [split; discriminate|].
  split; [split; apply is_double_iff; reflexivity|].
  split; [right; apply Qle_bool_iff; vm_compute; reflexivity|].
  split; [right; apply Qle_bool_iff; vm_compute; reflexivity|].
  intro C. apply Qeq_bool_iff in C. vm_compute in C. discriminate.
Qed.
