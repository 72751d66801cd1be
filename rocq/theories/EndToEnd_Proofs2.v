(** Whole searches: serial and parallel. *)
From Coq Require Import Permutation Reals Qreals Qminmax.
From Verif Require Import PyBase Rounding_Model Rounding_Proofs Container_Model Container_Spec
  Container_Proofs Finder_Model Finder_Spec Finder_Proofs Poly_Model Refine_Model Refine_Spec
  Refine_Proofs Refine_Proofs2 Zeros_Spec Zeros_Proofs Refine_Proofs3 EndToEnd_Model EndToEnd_Spec
  EndToEnd_Proofs.
Open Scope Z_scope.

Record pooled (zeros : list point) (P : Z * Z) (R : rect) (rs : list root) (qs : list rect) : Prop := mkPooled {
  pd_roots : forall r, In r rs <-> exists q, In q qs /\ r = (center q, Z.of_nat (count zeros q));
  pd_cells : forall q, In q qs -> proper q /\ sub_tolerance P q /\ (1 <= count zeros q)%nat /\
    (forall z, zin q z -> zin R z);
  pd_same : forall q q' z, In q qs -> In q' qs -> In z zeros -> zin q z -> zin q' z -> q = q';
  pd_zeros : forall z, In z zeros -> zin R z -> exists q, In q qs /\ zin q z
}.

Lemma found_pooled zeros x rs qs : found zeros x rs qs ->
  pooled zeros (cx_precision x) (rect_of x) rs qs.
Proof.
  intros [A B C D]. split; [exact A| | |exact D].
  - intros q Hq. destruct (C q Hq) as (C1 & C2 & C3 & C4 & C5).
    split; [exact C2|]. split; [exact C3|]. split; [exact C4|]. intro z. apply sub_zin, C1.
  - intros q q' z Hq Hq' Hz Z1 Z2.
    destruct (C q Hq) as (_ & _ & _ & _ & C5). destruct (C q' Hq') as (_ & _ & _ & _ & C5').
    exact (same_cell qs q q' z B Hq Hq' (C5 z Hz Z1) (C5' z Hz Z2)).
Qed.

Section Conclude.
  Variables (zeros : list point) (P P' : Z * Z) (W0 : rect) (rs : list root) (qs : list rect).
  Variables (t : R) (reRan imRan : Q * Q) (pairs : list root).
  Hypothesis HP : pooled zeros P W0 rs qs.
  Hypothesis Hround : forall c z o, near P c z -> within t P' (fst (roundRoot (c, o) P')) z.
  Hypothesis Hpairs : forall pr, In pr pairs <-> exists r, In r rs /\ pr = roundRoot r P'.
  Hypothesis Hreq : forall z, requested reRan imRan z -> zin W0 z.
  Hypothesis Halm : forall z, zin W0 z -> almost_requested P reRan imRan z.

  Lemma pair_cell c k : In (c, k) pairs ->
    exists q, In q qs /\ (c, k) = roundRoot (center q, Z.of_nat (count zeros q)) P'.
  Proof.
    intro H. apply Hpairs in H. destruct H as (r & Hr & E). apply (pd_roots _ _ _ _ _ HP) in Hr.
    destruct Hr as (q & Hq & ->). exists q. auto.
  Qed.
  Lemma cell_pair q : In q qs -> In (roundRoot (center q, Z.of_nat (count zeros q)) P') pairs.
  Proof.
    intro H. apply Hpairs. exists (center q, Z.of_nat (count zeros q)). split; [|reflexivity].
    apply (pd_roots _ _ _ _ _ HP). exists q. auto.
  Qed.
  Lemma cell_within q z : In q qs -> zin q z ->
    within t P' (fst (roundRoot (center q, Z.of_nat (count zeros q)) P')) z.
  Proof.
    intros Hq Hz. destruct (pd_cells _ _ _ _ _ HP q Hq) as (C1 & C2 & _).
    apply Hround, near_cell; assumption.
  Qed.

  Lemma conclude_found : all_found t P' zeros reRan imRan pairs.
  Proof.
    intros z Hz Hr. destruct (pd_zeros _ _ _ _ _ HP z Hz (Hreq z Hr)) as (q & Hq & Hqz).
    exists (fst (roundRoot (center q, Z.of_nat (count zeros q)) P')), (Z.of_nat (count zeros q)).
    split; [exact (cell_pair q Hq)|]. destruct (pd_cells _ _ _ _ _ HP q Hq) as (_ & _ & C3 & _).
    split; [lia|]. apply cell_within; assumption.
  Qed.

  Lemma conclude_genuine : all_genuine t P' P zeros reRan imRan pairs.
  Proof.
    intros c k H. destruct (pair_cell c k H) as (q & Hq & E).
    destruct (pd_cells _ _ _ _ _ HP q Hq) as (_ & _ & C3 & C4).
    destruct (count_pos zeros q C3) as (z & Hz & Hqz).
    pose proof (cell_within q z Hq Hqz) as W.
    injection E as -> ->. split; [lia|]. exists z. split; [exact Hz|].
    split; [apply Halm, C4, Hqz|exact W].
  Qed.

  Lemma conclude_orders : separated 1 P zeros -> orders_right t P' P zeros reRan imRan pairs.
  Proof.
    intros Hs c k H. destruct (pair_cell c k H) as (q & Hq & E).
    destruct (pd_cells _ _ _ _ _ HP q Hq) as (_ & C2 & C3 & C4).
    destruct (count_pos zeros q C3) as (z & Hz & Hqz).
    pose proof (cell_within q z Hq Hqz) as W.
    injection E as -> ->. exists z. split; [exact Hz|].
    split; [apply Halm, C4, Hqz|]. split; [exact W|]. intro dec. f_equal.
    apply count_one_cluster; [|exact Hz|exact Hqz].
    exact (cell_cluster 1 P zeros q (Rle_refl 1) Hs C2).
  Qed.

  Lemma conclude_unique : separated 1 P zeros -> separated (2 * t) P' zeros ->
    exactly_once t P' zeros reRan imRan pairs.
  Proof.
    intros Hs Hs2 z Hz Hr. destruct (pd_zeros _ _ _ _ _ HP z Hz (Hreq z Hr)) as (q & Hq & Hqz).
    destruct (pd_cells _ _ _ _ _ HP q Hq) as (_ & C2 & C3 & C4).
    exists (fst (roundRoot (center q, Z.of_nat (count zeros q)) P')), (Z.of_nat (count zeros q)).
    split; [exact (cell_pair q Hq)|]. split; [apply cell_within; assumption|].
    split.
    { intro dec. f_equal. apply count_one_cluster; [|exact Hz|exact Hqz].
      exact (cell_cluster 1 P zeros q (Rle_refl 1) Hs C2). }
    intros c' k' H W. destruct (pair_cell c' k' H) as (q' & Hq' & E).
    destruct (pd_cells _ _ _ _ _ HP q' Hq') as (_ & _ & C3' & _).
    destruct (count_pos zeros q' C3') as (z' & Hz' & Hqz').
    pose proof (cell_within q' z' Hq' Hqz') as W'. rewrite <- E in W'. cbn [fst] in W'.
    assert (z' = z) as -> by exact (within_separated t P' c' z' z zeros Hs2 Hz' Hz W' W).
    assert (q' = q) as -> by exact (pd_same _ _ _ _ _ HP q' q z Hq' Hq Hz Hqz' Hqz).
    rewrite E. reflexivity.
  Qed.
End Conclude.

(** ** Serial finder *)
Section SerialSearch.
  Context {S : Type} (E : env S).
  Variables (zeros : list point) (depth : nat) (info : root -> bool) (s : S).
  Variables (f : holoFunc) (df : option holoFunc) (dflt : Z * Z) (reRan imRan : Q * Q) (prec : option (Z * Z)).
  Variables (p : option (Z * Z)) (sp : Z * Z) (iter : list root -> list root) (a b : nat).
  Let P := search_precision dflt prec.
  Let x := serial_context f df dflt reRan imRan prec.
  Let out := calculateRoots f df dflt (argument_algorithm E Simple depth info s) reRan imRan prec (rc_init p sp).
  Hypothesis HI : iteration_order iter.
  Hypothesis Ha : halvings (Qabs (fst reRan - snd reRan) + 3 * pow10 (- fst P)) (fst P) a.
  Hypothesis Hb : halvings (Qabs (fst imRan - snd imRan) + 7 * pow10 (- snd P)) (snd P) b.
  Hypothesis Hd : (a + b < depth)%nat.
  Hypothesis HR : reliable E zeros P (rect_of x).

  Lemma near_P c z o : near P c z -> within 1 P (fst (roundRoot (c, o) P)) z.
  Proof.
    intro H. apply (near_round P P 0); [|rewrite !Z.add_0_r; destruct P; exact H|reflexivity].
    intro d. rewrite Z.add_0_r. ring.
  Qed.

  Lemma serial_run : snd out = Ok tt /\ exists rs qs, pooled zeros P (rect_of x) rs qs /\
    forall pr, In pr (reported_pairs iter (fst out)) <-> exists r, In r rs /\ pr = roundRoot r P.
  Proof.
    pose proof (rect_halvings f df dflt reRan imRan prec a b Ha Hb) as [Ha' Hb'].
    pose proof (rect_proper f df dflt reRan imRan prec) as Hp. fold x in Ha', Hb', Hp.
    destruct (algorithm_core E zeros depth info s x a b Hp Ha' Hb' Hd HR) as [He Hq].
    set (run := argument_algorithm E Simple depth info s x) in *.
    pose proof (fun pr => fresh_feed (toFilterContext x) (ar_reports run) p sp iter pr HI) as HF.
    assert (Hout : out = (fst (feed (toFilterContext x) (ar_reports run) (rc_init p sp)), Ok tt)).
    { unfold out, calculateRoots. fold x. fold run. cbv zeta.
      destruct (HF ((0, 0)%Q, 0)) as [H1 _].
      destruct (feed (toFilterContext x) (ar_reports run) (rc_init p sp)) as [c1 r1].
      cbn [snd] in H1. subst r1. rewrite He. reflexivity. }
    rewrite Hout. cbn [fst snd]. split; [reflexivity|].
    exists (map snd (ar_reports run)), (reported_cells E depth s x). split; [exact (found_pooled _ _ _ _ Hq)|].
    intro pr. rewrite (proj2 (HF pr)). split.
    - intros (i & r & H1 & H2). exists r. split; [|exact H2]. apply in_map_iff. exists (i, r). auto.
    - intros (r & H1 & H2). apply in_map_iff in H1. destruct H1 as ([i r'] & H1 & H3).
      cbn in H1. subst r'. exists i, r. auto.
  Qed.

  Lemma C63_serial_lemma :
    snd out = Ok tt /\
    let pairs := reported_pairs iter (fst out) in
    all_found 1 P zeros reRan imRan pairs /\
    all_genuine 1 P P zeros reRan imRan pairs /\
    (separated 1 P zeros -> orders_right 1 P P zeros reRan imRan pairs) /\
    (separated 2 P zeros -> exactly_once 1 P zeros reRan imRan pairs).
  Proof.
    destruct serial_run as [Ho (rs & qs & HP & Hpr)]. split; [exact Ho|]. intro pairs.
    assert (Hreq : forall z, requested reRan imRan z -> zin (rect_of x) z)
      by (intro z; apply rect_requested).
    assert (Halm : forall z, zin (rect_of x) z -> almost_requested P reRan imRan z)
      by (intro z; apply rect_almost).
    split; [|split; [|split]].
    - exact (conclude_found _ _ _ _ _ _ _ _ _ _ HP near_P Hpr Hreq).
    - exact (conclude_genuine _ _ _ _ _ _ _ _ _ _ HP near_P Hpr Halm).
    - exact (conclude_orders _ _ _ _ _ _ _ _ _ _ HP near_P Hpr Halm).
    - intro Hs. assert (Hs1 : separated 1 P zeros).
      { intros z1 z2 H1 H2 A B. apply Hs; [exact H1|exact H2| |];
          pose proof (Q2R_pow10_pos (- fst P)); pose proof (Q2R_pow10_pos (- snd P)); Lra.lra. }
      rewrite <- (Rmult_1_r 2) in Hs.
      exact (conclude_unique _ _ _ _ _ _ _ _ _ _ HP near_P Hpr Hreq Hs1 Hs).
  Qed.
End SerialSearch.

(** ** Parallel finder *)
Lemma linspace_locate_R a b n (v : R) : (1 <= n)%nat -> (Q2R a <= v <= Q2R b)%R ->
  exists i, (i < n)%nat /\ (Q2R (linspace_pt a b n i) <= v <= Q2R (linspace_pt a b n (i + 1)))%R.
Proof.
  intros Hn [L U].
  assert (G : forall m, (m <= n)%nat -> (v <= Q2R (linspace_pt a b n m))%R ->
     m = O \/ exists i, (i < n)%nat /\ (Q2R (linspace_pt a b n i) <= v <= Q2R (linspace_pt a b n (i + 1)))%R).
  { induction m as [|m IH]; intros Hm Hv; [auto|]. right.
    destruct (Rlt_le_dec (Q2R (linspace_pt a b n m)) v) as [C|C].
    - exists m. split; [lia|]. rewrite Nat.add_1_r. split; [apply Rlt_le, C|exact Hv].
    - destruct (IH ltac:(lia) C) as [->|X]; [|exact X].
      exists O. split; [lia|]. split; [rewrite (Qeq_eqR _ _ (linspace_pt_0 a b n)); exact L|exact Hv]. }
  destruct (G n (le_n n)) as [->|X]; [rewrite (Qeq_eqR _ _ (linspace_pt_n a b n Hn)); exact U|lia|exact X].
Qed.

Section ParallelSearch.
  Context {S : Type} (E : env S).
  Variables (zeros : list point) (depth n : nat) (st : rctx -> S).
  Variables (f : holoFunc) (df : option holoFunc) (dflt : Z * Z) (reRan imRan : Q * Q) (prec : option (Z * Z)).
  Variables (p : option (Z * Z)) (sp : Z * Z) (iter : list root -> list root) (a b : nat).
  Let P := search_precision dflt prec.
  Let P' := match prec with Some q => q | None => dflt end.
  Let x := serial_context f df dflt reRan imRan prec.
  Let jobs := createRootJobs n x.
  Let outs := map (fun job => worker_output E Simple depth (st job) job) jobs.
  Hypothesis Hn : (1 <= n)%nat.
  Hypothesis HI : iteration_order iter.
  Hypothesis Ha : halvings (Qabs (fst reRan - snd reRan) + 3 * pow10 (- fst P)) (fst P) a.
  Hypothesis Hb : halvings (Qabs (fst imRan - snd imRan) + 7 * pow10 (- snd P)) (snd P) b.
  Hypothesis Hd : (a + b < depth)%nat.
  Hypothesis HR : forall job, In job jobs -> reliable E zeros P (rect_of job).

  Let Hw : (fst (cx_reRan x) < snd (cx_reRan x))%Q.
  Proof. exact (proj1 (rect_wide f df dflt reRan imRan prec)). Qed.
  Let Hh : (fst (cx_imRan x) < snd (cx_imRan x))%Q.
  Proof. exact (proj2 (rect_wide f df dflt reRan imRan prec)). Qed.

  Lemma job_inside job : In job jobs -> sub_rect (rect_of job) (rect_of x) /\ proper (rect_of job) /\
    cx_precision job = P.
  Proof.
    intro H. apply (jobs_in n x Hn) in H. destruct H as (i & j & Hi & Hj & ->).
    unfold rect_of, sub_rect, proper, cell. cbn [x1 x2 y1 y2 cx_reRan cx_imRan fst snd cx_precision].
    pose proof (linspace_pt_mono (fst (cx_reRan x)) (snd (cx_reRan x)) n 0 i Hn ltac:(lra) ltac:(lia)).
    pose proof (linspace_pt_mono (fst (cx_reRan x)) (snd (cx_reRan x)) n (i+1) n Hn ltac:(lra) ltac:(lia)).
    pose proof (linspace_pt_mono (fst (cx_reRan x)) (snd (cx_reRan x)) n i (i+1) Hn ltac:(lra) ltac:(lia)).
    pose proof (linspace_pt_mono (fst (cx_imRan x)) (snd (cx_imRan x)) n 0 j Hn ltac:(lra) ltac:(lia)).
    pose proof (linspace_pt_mono (fst (cx_imRan x)) (snd (cx_imRan x)) n (j+1) n Hn ltac:(lra) ltac:(lia)).
    pose proof (linspace_pt_mono (fst (cx_imRan x)) (snd (cx_imRan x)) n j (j+1) Hn ltac:(lra) ltac:(lia)).
    rewrite linspace_pt_0 in *. rewrite linspace_pt_n in * by exact Hn.
    split; [|split; [split; assumption|reflexivity]].
    split; [assumption|]. split; [assumption|]. split; assumption.
  Qed.

  Notation cells job := (reported_cells E depth (st job) job).

  Lemma job_found job : In job jobs -> snd (worker_output E Simple depth (st job) job) = None /\
    found zeros job (fst (worker_output E Simple depth (st job) job)) (cells job).
  Proof.
    intro H. destruct (job_inside job H) as ((S1 & S2 & S3 & S4) & Hp & HP).
    pose proof (rect_halvings f df dflt reRan imRan prec a b Ha Hb) as [Ha' Hb']. fold x P in Ha', Hb'.
    unfold worker_output. cbn [fst snd].
    apply (algorithm_core E zeros depth (fun _ => false) (st job) job a b); try exact Hd.
    - exact Hp.
    - rewrite HP. eapply Qle_lt_trans; [|exact Ha']. Lqa.lra.
    - rewrite HP. eapply Qle_lt_trans; [|exact Hb']. Lqa.lra.
    - rewrite HP. exact (HR job H).
  Qed.

  Lemma same_job i j i' j' z : (i < n)%nat -> (j < n)%nat -> (i' < n)%nat -> (j' < n)%nat ->
    zstrict (rect_of (cell n x i j)) z -> zstrict (rect_of (cell n x i' j')) z -> i = i' /\ j = j'.
  Proof.
    intros Hi Hj Hi' Hj' Z1 Z2.
    destruct (Nat.eq_dec i i') as [->|N]; [destruct (Nat.eq_dec j j') as [->|N]; [auto|]|];
      exfalso; apply (common_interior _ _ z Z1 Z2); intros w [[A1 A2] [B1 B2]]; apply N.
    - exact (strict_same_index n Hn _ _ _ _ _ Hh A2 B2).
    - exact (strict_same_index n Hn _ _ _ _ _ Hw A1 B1).
  Qed.

  Lemma parallel_pooled q : Permutation (List.concat (map fst outs)) q ->
    pooled zeros P (rect_of x) q (flat_map (fun job => cells job) jobs).
  Proof.
    intro HP. split.
    - intro r. split.
      + intro Hr. eapply Permutation_in in Hr; [|symmetry; exact HP].
        apply in_concat in Hr. destruct Hr as (l & H1 & H2). apply in_map_iff in H1.
        destruct H1 as (o & <- & H1). unfold outs in H1. apply in_map_iff in H1.
        destruct H1 as (job & <- & H1).
        apply (fd_roots _ _ _ _ (proj2 (job_found job H1))) in H2. destruct H2 as (c & Hc & ->).
        exists c. split; [|reflexivity]. apply in_flat_map. exists job. auto.
      + intros (c & Hc & Hr). apply in_flat_map in Hc. destruct Hc as (job & H1 & H2).
        assert (Hin : In r (fst (worker_output E Simple depth (st job) job))).
        { apply (fd_roots _ _ _ _ (proj2 (job_found job H1))). exists c. auto. }
        eapply Permutation_in; [exact HP|]. apply in_concat.
        exists (fst (worker_output E Simple depth (st job) job)). split; [|exact Hin].
        apply in_map. unfold outs. apply in_map_iff. exists job. split; [reflexivity|exact H1].
    - intros c Hc. apply in_flat_map in Hc. destruct Hc as (job & H1 & H2).
      destruct (fd_cells _ _ _ _ (proj2 (job_found job H1)) c H2) as (C1 & C2 & C3 & C4 & C5).
      destruct (job_inside job H1) as (I1 & I2 & I3).
      rewrite I3 in C3. split; [exact C2|]. split; [exact C3|]. split; [exact C4|].
      intros z Hz. exact (sub_zin _ _ _ I1 (sub_zin _ _ _ C1 Hz)).
    - intros c c' z Hc Hc' Hz Z1 Z2. apply in_flat_map in Hc, Hc'.
      destruct Hc as (job & H1 & H2). destruct Hc' as (job' & H1' & H2').
      destruct (fd_cells _ _ _ _ (proj2 (job_found job H1)) c H2) as (C1 & _ & _ & _ & C5).
      destruct (fd_cells _ _ _ _ (proj2 (job_found job' H1')) c' H2') as (C1' & _ & _ & _ & C5').
      pose proof (proj1 (HR job H1 _ (st job) (cell_whole P (rect_of job))) z Hz (sub_zin _ _ _ C1 Z1)) as S1.
      pose proof (proj1 (HR job' H1' _ (st job') (cell_whole P (rect_of job'))) z Hz (sub_zin _ _ _ C1' Z2)) as S2.
      destruct (jobs_in n x Hn job H1) as (i & j & Hi & Hj & Ej).
      destruct (jobs_in n x Hn job' H1') as (i' & j' & Hi' & Hj' & Ej').
      assert (Hjj : job = job').
      { rewrite Ej in S1. rewrite Ej' in S2.
        destruct (same_job _ _ _ _ _ Hi Hj Hi' Hj' S1 S2) as [<- <-]. congruence. }
      rewrite <- Hjj in H2'.
      apply (same_cell (cells job) c c' z); [exact (fd_disjoint _ _ _ _ (proj2 (job_found job H1)))|exact H2|exact H2'| |].
      + apply C5; assumption.
      + apply C5'; assumption.
    - intros z Hz [Zx Zy].
      destruct (linspace_locate_R _ _ n _ Hn Zx) as (i & Hi & I1).
      destruct (linspace_locate_R _ _ n _ Hn Zy) as (j & Hj & J1).
      pose proof (cell_in_jobs n x Hn i j Hi Hj) as Hc.
      destruct (fd_zeros _ _ _ _ (proj2 (job_found _ Hc)) z Hz (conj I1 J1)) as (c & H1 & H2).
      exists c. split; [|exact H2]. apply in_flat_map. exists (cell n x i j). auto.
  Qed.

  Lemma near_P' c z o : near P c z -> within (11 / 20) P' (fst (roundRoot (c, o) P')) z.
  Proof.
    intro H. apply (near_round P' P' 1); [|exact H|reflexivity].
    intro d. rewrite (Qeq_eqR _ _ (pow10_opp_succ d)), Q2R_mult.
    replace (Q2R (1 # 10)) with (/ 10)%R by (unfold Q2R; cbn [Qnum Qden]; symmetry; apply Rmult_1_l).
    field.
  Qed.

  Lemma drain_fresh info q pr :
    let out := parallel_calculateRoots f dflt reRan imRan prec info (PoolDone q) (rc_init p sp) in
    snd out = Ok tt /\
    (In pr (reported_pairs iter (fst out)) <-> exists r, In r q /\ pr = roundRoot r P').
  Proof.
    cbn zeta. unfold parallel_calculateRoots, drain.
    destruct (fresh_feed (drain_context f dflt reRan imRan prec) (map (fun r => (info, r)) q) p sp iter pr HI)
      as [F1 F2].
    split; [exact F1|]. rewrite F2. rewrite (drain_prec f dflt reRan imRan prec). split.
    - intros (i & r & H1 & H2). apply in_map_iff in H1. destruct H1 as (r' & Hr & H1).
      injection Hr as _ <-. exists r'. auto.
    - intros (r & H1 & H2). exists info, r. split; [|exact H2]. apply in_map_iff. exists r. auto.
  Qed.

  Lemma C63_parallel_lemma e info : pool_behaviour outs e ->
    (forall x', e <> PoolRaised x') /\
    let out := parallel_calculateRoots f dflt reRan imRan prec info e (rc_init p sp) in
    snd out = Ok tt /\
    let pairs := reported_pairs iter (fst out) in
    all_genuine (11 / 20) P' P zeros reRan imRan pairs /\
    (separated 1 P zeros -> orders_right (11 / 20) P' P zeros reRan imRan pairs) /\
    (forall q, e = PoolDone q ->
       all_found (11 / 20) P' zeros reRan imRan pairs /\
       (separated (11 / 10) P' zeros -> exactly_once (11 / 20) P' zeros reRan imRan pairs)).
  Proof.
    intro HB.
    assert (Hreq : forall z, requested reRan imRan z -> zin (rect_of x) z)
      by (intro z; apply rect_requested).
    assert (Halm : forall z, zin (rect_of x) z -> almost_requested P reRan imRan z)
      by (intro z; apply rect_almost).
    assert (Hfull : pooled zeros P (rect_of x) (List.concat (map fst outs)) (flat_map (fun job => cells job) jobs))
      by (apply parallel_pooled; apply Permutation_refl).
    destruct e as [q|q|x'].
    - destruct HB as [_ HB]. apply interleaving_perm in HB.
      pose proof (parallel_pooled q HB) as HP.
      pose proof (fun pr => proj2 (drain_fresh info q pr)) as Hpr. cbn zeta in Hpr.
      split; [intros x' C; discriminate C|]. intro out.
      split; [exact (proj1 (drain_fresh info q ((0, 0)%Q, 0)))|]. intro pairs.
      split; [exact (conclude_genuine _ _ _ _ _ _ _ _ _ _ HP near_P' Hpr Halm)|].
      split; [exact (conclude_orders _ _ _ _ _ _ _ _ _ _ HP near_P' Hpr Halm)|].
      intros q' _. split; [exact (conclude_found _ _ _ _ _ _ _ _ _ _ HP near_P' Hpr Hreq)|].
      intro Hs. assert (Hs1 : separated 1 P zeros).
      { assert (Hten : forall d, Q2R (pow10 (- (d + 1))) = (Q2R (pow10 (- d)) * / 10)%R).
        { intro d. rewrite (Qeq_eqR _ _ (pow10_opp_succ d)), Q2R_mult. f_equal.
          unfold Q2R; cbn [Qnum Qden]; apply Rmult_1_l. }
        intros z1 z2 H1 H2 A B. unfold P, search_precision in A, B. fold P' in A, B. cbn [fst snd] in A, B.
        rewrite Hten in A, B. apply Hs; [exact H1|exact H2| |];
          pose proof (Q2R_pow10_pos (- fst P')); pose proof (Q2R_pow10_pos (- snd P')); Lra.lra. }
      replace (11 / 10)%R with (2 * (11 / 20))%R in Hs by field.
      exact (conclude_unique _ _ _ _ _ _ _ _ _ _ HP near_P' Hpr Hreq Hs1 Hs).
    - destruct HB as (outs' & HF & HB). apply interleaving_perm in HB.
      assert (Hsub : forall r, In r q -> In r (List.concat (map fst outs))).
      { intros r Hr. eapply Permutation_in in Hr; [|symmetry; exact HB].
        apply in_concat in Hr. destruct Hr as (l & H1 & H2).
        destruct (Forall2_prefix_in _ _ _ _ HF H1 H2) as (l2 & H3 & H4).
        apply in_concat. exists l2. auto. }
      pose proof (fun pr => proj2 (drain_fresh info q pr)) as Hpr. cbn zeta in Hpr.
      set (full := map (fun r => roundRoot r P') (List.concat (map fst outs))).
      assert (Hfp : forall pr, In pr full <-> exists r, In r (List.concat (map fst outs)) /\ pr = roundRoot r P').
      { intro pr. unfold full. rewrite in_map_iff. split; intros (r & H1 & H2); exists r; auto. }
      assert (Hincl : forall pr, In pr (reported_pairs iter (fst (parallel_calculateRoots f dflt reRan imRan prec info
                 (PoolInterrupted q) (rc_init p sp)))) -> In pr full).
      { intros pr H. apply Hpr in H. destruct H as (r & H1 & H2). apply Hfp. exists r. auto. }
      split; [intros x' C; discriminate C|]. intro out.
      split; [exact (proj1 (drain_fresh info q ((0, 0)%Q, 0)))|]. intro pairs.
      split; [|split].
      + intros c k H. apply (conclude_genuine _ _ _ _ _ _ _ _ _ _ Hfull near_P' Hfp Halm). apply Hincl, H.
      + intros Hs c k H. apply (conclude_orders _ _ _ _ _ _ _ _ _ _ Hfull near_P' Hfp Halm Hs). apply Hincl, H.
      + intros q' C. discriminate C.
    - exfalso. destruct HB as (o & H1 & H2). unfold outs in H1. apply in_map_iff in H1.
      destruct H1 as (job & <- & H1). rewrite (proj1 (job_found job H1)) in H2. discriminate H2.
  Qed.
End ParallelSearch.
