(** Whole searches in binary64: the parallel finder. *)
From Coq Require Import Permutation Reals Qreals Qminmax.
From Verif Require Import PyBase Rounding_Model Rounding_Proofs Container_Model Container_Spec
  Container_Proofs Finder_Model Finder_Spec Finder_Proofs Poly_Model Refine_Model Refine_Spec
  Refine_Proofs Refine_Proofs2 Zeros_Spec Zeros_Proofs Refine_Proofs3 EndToEnd_Model EndToEnd_Spec
  EndToEnd_Proofs EndToEnd_Proofs2 Float_Model Float_Spec Float_Proofs Float_Proofs2 Float_Proofs3 Float_Proofs4
  FloatGrid_Model FloatGrid_Spec FloatGrid_Proofs FloatCont_Model FloatCont_Spec FloatCont_Proofs
  FloatEnd_Model FloatEnd_Spec FloatEnd_Proofs FloatEnd_Proofs2 FloatEnd_Proofs3.
From Coq Require Import Lqa.
Open Scope Z_scope.

(** ** numpy's rounding of a reported value *)
Lemma np_round_near k t n c : scale k t (pow10 (- (n + 1))) -> 0 <= n <= 22 -> (Qabs c <= 2 ^ k)%Q ->
  (Qabs (np_round n c - c) <= (23 # 40) * pow10 (- n))%Q.
Proof.
  intros HS Hn Hc. pose proof (scale_facts _ _ _ HS) as (U0 & B0 & U1 & T1 & E1 & E2 & _).
  pose proof (sc_low _ _ _ HS) as TL.
  pose proof (pow10_opp_succ n) as ET. rewrite ET in E1, E2.
  pose proof (pow10_pos (- n)) as P0. pose proof (pow10_pos n) as P1.
  assert (KB : (2 ^ k == inject_Z (2 ^ 49) * 2 ^ (k - 49))%Q).
  { replace k with (49 + (k - 49)) at 1 by lia. rewrite Qpower_plus by discriminate. reflexivity. }
  assert (Hx : (Qabs (c * pow10 n) <= inject_Z (2 ^ 50))%Q).
  { rewrite Qabs_Qmult, (Qabs_pos (pow10 n)) by lra.
    assert (C1 : (Qabs c <= inject_Z (2 ^ 49) * pow10 (- n))%Q).
    { rewrite KB in Hc. eapply Qle_trans; [exact Hc|]. apply Qmult_le_l; [reflexivity|].
      set (h := (2 ^ (k - 49))%Q) in *. clearbody h. lra. }
    apply Qle_trans with (inject_Z (2 ^ 49) * pow10 (- n) * pow10 n)%Q.
    - apply Qmult_le_compat_r; [exact C1|lra].
    - pose proof (pow10_inv n) as I.
      setoid_replace (inject_Z (2 ^ 49) * pow10 (- n) * pow10 n)%Q with (inject_Z (2 ^ 49) * (pow10 n * pow10 (- n)))%Q by ring.
      rewrite I. apply Qle_bool_iff. vm_compute. reflexivity. }
  destruct (np_round_spec n c Hn Hx) as ((j & Ej & Hj) & _). rewrite Ej.
  set (d := (inject_Z j * pow10 (- n))%Q) in *. clearbody d.
  apply Qabs_Qle_condition in Hj, Hc.
  assert (N : (Qabs (rnd64 d - d) <= 2 ^ (k - 53))%Q).
  { apply rnd64_near; [exact (sc_k _ _ _ HS)|]. apply Qabs_Qle_condition.
    set (BB := (2 ^ k)%Q) in *. clearbody BB. lra. }
  apply Qabs_Qle_condition in N. apply Qabs_Qle_condition.
  set (u := (2 ^ (k - 53))%Q) in *. set (w := rnd64 d) in *. clearbody u w. lra.
Qed.

Section CellsNp.
  Variables (k : Z) (tx ty : Q) (P : Z * Z).
  Hypothesis S1 : scale k tx (pow10 (- (fst P + 1))).
  Hypothesis S2 : scale k ty (pow10 (- (snd P + 1))).
  Hypothesis N1 : 0 <= fst P <= 22.
  Hypothesis N2 : 0 <= snd P <= 22.
  Variables (W : rect) (q : rect).
  Hypothesis HW : rect_below k W.
  Hypothesis Hsub : sub_rect q W.
  Hypothesis Hp : proper q.
  Hypothesis Hf : float_rect rnd64 q.
  Hypothesis Hs : sides_below tx ty q.

  Lemma cell_np z o : zin q z -> within (13 / 20) P (fst (froundRoot np_round (fcenter rnd64 q, o) P)) z.
  Proof.
    intro Hz. destruct (cell_mid k tx ty (fst P + 1, snd P + 1) S1 S2 W q HW Hsub Hp Hf Hs z Hz)
      as (_ & A1 & A2 & A3 & A4). cbn [fst snd] in A3, A4.
    unfold froundRoot, within. cbn [fst snd]. set (c := fcenter rnd64 q) in *.
    pose proof (np_round_near k tx (fst P) (re c) S1 N1 A1) as M1.
    pose proof (np_round_near k ty (snd P) (im c) S2 N2 A2) as M2.
    assert (Q35 : Q2R (3 # 5) = (3 / 5)%R) by (unfold Q2R; cbn; Lra.lra).
    assert (Q23 : Q2R (23 # 40) = (23 / 40)%R) by (unfold Q2R; cbn; Lra.lra).
    assert (Q10 : Q2R (1 # 10) = (1 / 10)%R) by (unfold Q2R; cbn; Lra.lra).
    rewrite <- Q35 in A3, A4.
    pose proof (two_steps _ _ _ _ _ _ A3 M1) as K1. pose proof (two_steps _ _ _ _ _ _ A4 M2) as K2.
    rewrite (Qeq_eqR _ _ (pow10_opp_succ (fst P))), !Q2R_mult, Q35, Q23, Q10 in K1.
    rewrite (Qeq_eqR _ _ (pow10_opp_succ (snd P))), !Q2R_mult, Q35, Q23, Q10 in K2.
    pose proof (Q2R_pow10_pos (- fst P)). pose proof (Q2R_pow10_pos (- snd P)).
    unfold re, im in *. cbn [fst snd] in *. split; Lra.lra.
  Qed.
End CellsNp.

(** ** Points of the real domain and the job grid *)
Lemma locate_R (p : nat -> Q) n (v : R) : (1 <= n)%nat -> (Q2R (p 0%nat) <= v <= Q2R (p n))%R ->
  exists i, (i < n)%nat /\ (Q2R (p i) <= v <= Q2R (p (i + 1)%nat))%R.
Proof.
  intros Hn [L U].
  assert (G : forall m, (m <= n)%nat -> (v <= Q2R (p m))%R ->
     m = O \/ exists i, (i < n)%nat /\ (Q2R (p i) <= v <= Q2R (p (i + 1)%nat))%R).
  { induction m as [|m IH]; intros Hm Hv; [left; reflexivity|].
    destruct (Rlt_le_dec (Q2R (p m)) v) as [C|C].
    - right. exists m. split; [lia|]. rewrite Nat.add_1_r. split; [apply Rlt_le, C|exact Hv].
    - destruct (IH ltac:(lia) C) as [->|X]; [|right; exact X]. right.
      exists O. split; [lia|]. split; [exact L|exact Hv]. }
  destruct (G n (le_n n) U) as [X|X]; [lia|exact X].
Qed.

Lemma FOP_map {A B} (R : B -> B -> Prop) (g : A -> B) l : ForallOrdPairs R (map g l) ->
  ForallOrdPairs (fun x y => R (g x) (g y)) l.
Proof.
  induction l as [|a l IH]; intro H; [constructor|]. cbn in H. inversion H as [|b m F O]; subst.
  constructor; [|apply IH, O]. rewrite Forall_forall in *. intros y Hy. apply F, in_map, Hy.
Qed.

Lemma same_job64 jobs job job' z : ForallOrdPairs interiors_disjoint (map rect_of jobs) ->
  In job jobs -> In job' jobs -> zstrict (rect_of job) z -> zstrict (rect_of job') z -> job = job'.
Proof.
  intros D H1 H2 Z1 Z2. apply FOP_map in D.
  destruct (ForallOrdPairs_In D job job' H1 H2) as [->|[C|C]]; [reflexivity|..].
  - exfalso. exact (common_interior _ _ _ Z1 Z2 C).
  - exfalso. exact (common_interior _ _ _ Z2 Z1 C).
Qed.

Section ParallelSearch.
  Context {S : Type} (E : env S).
  Variables (zeros : list point) (k : Z) (tx ty : Q) (depth n : nat) (st : rctx -> S).
  Variables (f : holoFunc) (df : option holoFunc) (dflt : Z * Z) (reRan imRan : Q * Q) (prec : option (Z * Z)).
  Variables (p : option (Z * Z)) (sp : Z * Z) (iter : list root -> list root) (a b : nat).
  Let P := search_precision dflt prec.
  Let P' := match prec with Some q => q | None => dflt end.
  Let x := fserial_context rnd64 tx ty f df dflt reRan imRan prec.
  Let jobs := fcreateRootJobs rnd64 n x.
  Let outs := map (fun job => fworker_output rnd64 tx ty E Simple depth (st job) job) jobs.
  Hypothesis Hn : (1 <= n)%nat.
  Hypothesis Hn2 : Z.of_nat n <= 2 ^ 51.
  Hypothesis Hk : -900 <= k.
  Hypothesis HI : iteration_order iter.
  Hypothesis S1 : scale k tx (pow10 (- fst P)).
  Hypothesis S2 : scale k ty (pow10 (- snd P)).
  Hypothesis N1 : 0 <= fst P' <= 22.
  Hypothesis N2 : 0 <= snd P' <= 22.
  Hypothesis B1 : below (k - 1) reRan.
  Hypothesis B2 : below (k - 1) imRan.
  Hypothesis Ha : halvings (Qabs (fst reRan - snd reRan) + 4 * pow10 (- fst P)) (fst P) a.
  Hypothesis Hb : halvings (Qabs (fst imRan - snd imRan) + 8 * pow10 (- snd P)) (snd P) b.
  Hypothesis Hd : (a + b + 4 < depth)%nat.
  Hypothesis HR : forall job, In job jobs -> reliable64 E zeros tx ty (rect_of job).

  Notation cells job := (fcells E tx ty depth (st job) job).

  Lemma margin_wide t e lo hi : scale k t e -> (e <= hi - lo)%Q -> wide n (lo, hi).
  Proof.
    intros HS H. right. cbn [fst snd]. eapply Qle_trans; [|exact H].
    pose proof (scale_facts _ _ _ HS) as (_ & _ & _ & _ & _ & G & _).
    pose proof (sc_low _ _ _ HS) as L.
    assert (A : (2 ^ (-949) <= 2 ^ (k - 49))%Q).
    { apply Rle_Qle. rewrite !Q2R_Qpower. apply Flocq.Core.Raux.bpow_le. lia. }
    assert (A2 : (inject_Z (Z.of_nat n) * 2 ^ (-1022) <= (1 # 2) * 2 ^ (-949))%Q).
    { apply Qle_trans with (inject_Z (2 ^ 51) * 2 ^ (-1022))%Q.
      - apply Qmult_le_compat_r; [rewrite <- Zle_Qle; exact Hn2|apply Qlt_le_weak, Qpow2_pos].
      - apply Qle_bool_iff. vm_compute. reflexivity. }
    pose proof (Qpow2_pos (-949)) as P0.
    set (g := (inject_Z (Z.of_nat n) * 2 ^ (-1022))%Q) in *.
    set (h := (2 ^ (-949))%Q) in *. set (h2 := (2 ^ (k - 49))%Q) in *. clearbody g h h2. lra.
  Qed.

  Lemma jobs_facts :
    tiles (rect_of x) (map rect_of jobs) /\
    (forall job, In job jobs -> double_rect (rect_of job) /\ cx_precision job = P) /\
    wide n (cx_reRan x) /\ wide n (cx_imRan x) /\ double_pair (cx_reRan x) /\ double_pair (cx_imRan x).
  Proof.
    pose proof (frect_bounds f df dflt reRan imRan prec k tx ty S1 S2 B1 B2) as HB.
    pose proof (frect_double f df dflt reRan imRan prec tx ty) as HD. fold x in HB, HD.
    fold P in HB.
    pose proof (minmax (fst reRan) (snd reRan)) as M1. pose proof (minmax (fst imRan) (snd imRan)) as M2.
    pose proof (pow10_pos (- fst P)) as E1. pose proof (pow10_pos (- snd P)) as E2.
    assert (W1 : wide n (cx_reRan x)).
    { rewrite (surjective_pairing (cx_reRan x)). apply (margin_wide _ _ _ _ S1).
      change (fst (cx_reRan x)) with (x1 (rect_of x)). change (snd (cx_reRan x)) with (x2 (rect_of x)). lra. }
    assert (W2 : wide n (cx_imRan x)).
    { rewrite (surjective_pairing (cx_imRan x)). apply (margin_wide _ _ _ _ S2).
      change (fst (cx_imRan x)) with (y1 (rect_of x)). change (snd (cx_imRan x)) with (y2 (rect_of x)). lra. }
    assert (D1 : double_pair (cx_reRan x)) by (destruct HD as (A & B & _); split; assumption).
    assert (D2 : double_pair (cx_imRan x)) by (destruct HD as (_ & _ & A & B); split; assumption).
    destruct (jobs_tile64 n x Hn Hn2 D1 D2 W1 W2) as (T & J & _). fold jobs in T, J.
    split; [exact T|]. split; [|auto].
    intros job H. destruct (J job H) as ([A1 A2] & [A3 A4] & _ & _ & A5).
    split; [repeat split; assumption|rewrite A5; reflexivity].
  Qed.

  Lemma job64_inside job : In job jobs -> sub_rect (rect_of job) (rect_of x) /\ proper (rect_of job).
  Proof.
    intro H. destruct jobs_facts as ((_ & T & _ & _) & _). apply T, in_map, H.
  Qed.

  Lemma job64_below job : In job jobs -> rect_below k (rect_of job).
  Proof.
    intro H. destruct (job64_inside job H) as ((A & B & C & D) & _).
    destruct (frect_size f df dflt reRan imRan prec k tx ty S1 S2 B1 B2) as (F & G & I & J).
    fold x in F, G, I, J. unfold rect_below. lra.
  Qed.

  Lemma job64_found job : In job jobs ->
    snd (fworker_output rnd64 tx ty E Simple depth (st job) job) = None /\
    ffound zeros tx ty (rect_of job) (fst (fworker_output rnd64 tx ty E Simple depth (st job) job)) (cells job).
  Proof.
    intro H. destruct (job64_inside job H) as ((A1 & A2 & A3 & A4) & Hp).
    pose proof (frect_halvings f df dflt reRan imRan prec k tx ty S1 S2 B1 B2 a b Ha Hb) as [Ha' Hb'].
    fold x in Ha', Hb'.
    destruct jobs_facts as (_ & J & _). destruct (J job H) as [HD _].
    unfold fworker_output. cbn [fst snd].
    apply (falgorithm_core E zeros tx ty k depth (fun _ => false) (st job) job (Datatypes.S a) (Datatypes.S b)).
    - exact (sc_k _ _ _ S1).
    - exact (sc_double _ _ _ S1).
    - exact (sc_double _ _ _ S2).
    - exact (sc_low _ _ _ S1).
    - exact (sc_low _ _ _ S2).
    - exact Hp.
    - exact HD.
    - exact (job64_below job H).
    - eapply Qle_lt_trans; [|exact Ha']. lra.
    - eapply Qle_lt_trans; [|exact Hb']. lra.
    - lia.
    - exact (HR job H).
  Qed.

  Lemma job64_cover z : zin (rect_of x) z -> exists job, In job jobs /\ zin (rect_of job) z.
  Proof.
    intros [Zx Zy]. destruct jobs_facts as (_ & _ & W1 & W2 & [D1 D2] & [D3 D4]).
    pose proof (frect_proper f df dflt reRan imRan prec k tx ty S1 S2 B1 B2) as [Px Py]. fold x in Px, Py.
    change (x1 (rect_of x)) with (fst (cx_reRan x)) in *. change (x2 (rect_of x)) with (snd (cx_reRan x)) in *.
    change (y1 (rect_of x)) with (fst (cx_imRan x)) in *. change (y2 (rect_of x)) with (snd (cx_imRan x)) in *.
    apply is_double_iff in D1, D2, D3, D4.
    set (px := flinspace_pt rnd64 (fst (cx_reRan x)) (snd (cx_reRan x)) n).
    set (py := flinspace_pt rnd64 (fst (cx_imRan x)) (snd (cx_imRan x)) n).
    assert (X0 : Q2R (px 0%nat) = Q2R (fst (cx_reRan x))) by (apply Qeq_eqR, (pt_0 rnd64 rounding64); assumption).
    assert (Y0 : Q2R (py 0%nat) = Q2R (fst (cx_imRan x))) by (apply Qeq_eqR, (pt_0 rnd64 rounding64); assumption).
    assert (Xn : Q2R (px n) = Q2R (snd (cx_reRan x))) by (unfold px; rewrite pt_n; reflexivity).
    assert (Yn : Q2R (py n) = Q2R (snd (cx_imRan x))) by (unfold py; rewrite pt_n; reflexivity).
    rewrite <- X0, <- Xn in Zx. rewrite <- Y0, <- Yn in Zy.
    destruct (locate_R px n _ Hn Zx) as (i & Hi & I1). destruct (locate_R py n _ Hn Zy) as (j & Hj & J1).
    assert (Hin : In (grid_cell px py i j) (map rect_of jobs)).
    { unfold jobs. rewrite fjobs_grid. fold px py. apply in_grid; [exact Hn|]. exists i, j. auto. }
    apply in_map_iff in Hin. destruct Hin as (job & Hj2 & Hin). exists job. split; [exact Hin|].
    rewrite Hj2. split; [exact I1|exact J1].
  Qed.

  Let allcells := flat_map (fun job => cells job) jobs.

  Lemma p_roots q : Permutation (List.concat (map fst outs)) q ->
    forall r, In r q <-> exists c, In c allcells /\ r = (fcenter rnd64 c, Z.of_nat (count zeros c)).
  Proof.
    intros HP r. split.
    + intro Hr. eapply Permutation_in in Hr; [|symmetry; exact HP].
      apply in_concat in Hr. destruct Hr as (l & H1 & H2). apply in_map_iff in H1.
      destruct H1 as (o & <- & H1). unfold outs in H1. apply in_map_iff in H1.
      destruct H1 as (job & <- & H1).
      apply (ff_roots _ _ _ _ _ _ (proj2 (job64_found job H1))) in H2. destruct H2 as (c & Hc & ->).
      exists c. split; [|reflexivity]. apply in_flat_map. exists job. auto.
    + intros (c & Hc & Hr). apply in_flat_map in Hc. destruct Hc as (job & H1 & H2).
      assert (Hin : In r (fst (fworker_output rnd64 tx ty E Simple depth (st job) job))).
      { apply (ff_roots _ _ _ _ _ _ (proj2 (job64_found job H1))). exists c. auto. }
      eapply Permutation_in; [exact HP|]. apply in_concat.
      exists (fst (fworker_output rnd64 tx ty E Simple depth (st job) job)). split; [|exact Hin].
      apply in_map. unfold outs. apply in_map_iff. exists job. split; [reflexivity|exact H1].
  Qed.

  Lemma p_cells c : In c allcells -> (1 <= count zeros c)%nat /\ (forall z, zin c z -> zin (rect_of x) z).
  Proof.
    intro Hc. apply in_flat_map in Hc. destruct Hc as (job & H1 & H2).
    destruct (ff_cells _ _ _ _ _ _ (proj2 (job64_found job H1)) c H2) as (C1 & C2 & C3 & C4 & C5 & C6).
    destruct (job64_inside job H1) as (I1 & _). split; [exact C5|].
    intros z Hz. exact (sub_zin _ _ _ I1 (sub_zin _ _ _ C1 Hz)).
  Qed.

  Lemma p_small c z1 z2 : In c allcells -> zin c z1 -> zin c z2 ->
    (Rabs (fst z1 - fst z2) <= 5 / 4 * Q2R (pow10 (- fst P)) /\
     Rabs (snd z1 - snd z2) <= 5 / 4 * Q2R (pow10 (- snd P)))%R.
  Proof.
    intro Hc. apply in_flat_map in Hc. destruct Hc as (job & H1 & H2).
    destruct (ff_cells _ _ _ _ _ _ (proj2 (job64_found job H1)) c H2) as (C1 & C2 & C3 & C4 & C5 & C6).
    apply (cell_small k tx ty P S1 S2 c C4).
  Qed.

  Lemma p_near c z o : In c allcells -> zin c z ->
    within (13 / 20) P' (fst (froundRoot np_round (fcenter rnd64 c, o) P')) z.
  Proof.
    intro Hc. apply in_flat_map in Hc. destruct Hc as (job & H1 & H2).
    destruct (ff_cells _ _ _ _ _ _ (proj2 (job64_found job H1)) c H2) as (C1 & C2 & C3 & C4 & C5 & C6).
    apply (cell_np k tx ty P' S1 S2 N1 N2 (rect_of job) c (job64_below job H1) C1 C2 C3 C4).
  Qed.

  Lemma p_same c c' z : In c allcells -> In c' allcells -> In z zeros -> zin c z -> zin c' z -> c = c'.
  Proof.
    intros Hc Hc' Hz Z1 Z2. apply in_flat_map in Hc, Hc'.
    destruct Hc as (job & H1 & H2). destruct Hc' as (job' & H1' & H2').
    destruct (ff_cells _ _ _ _ _ _ (proj2 (job64_found job H1)) c H2) as (C1 & _ & _ & _ & _ & C5).
    destruct (ff_cells _ _ _ _ _ _ (proj2 (job64_found job' H1')) c' H2') as (C1' & _ & _ & _ & _ & C5').
    pose proof (proj1 (HR job H1 _ (st job) (cell64_whole tx ty (rect_of job))) z Hz (sub_zin _ _ _ C1 Z1)) as T1.
    pose proof (proj1 (HR job' H1' _ (st job') (cell64_whole tx ty (rect_of job'))) z Hz (sub_zin _ _ _ C1' Z2)) as T2.
    destruct jobs_facts as ((_ & _ & D & _) & _).
    pose proof (same_job64 jobs job job' z D H1 H1' T1 T2) as Hjj.
    rewrite <- Hjj in H2'.
    apply (same_cell (cells job) c c' z); [exact (ff_disjoint _ _ _ _ _ _ (proj2 (job64_found job H1)))|exact H2|exact H2'| |].
    + apply C5; assumption.
    + apply C5'; assumption.
  Qed.

  Lemma p_zeros z : In z zeros -> zin (rect_of x) z -> exists c, In c allcells /\ zin c z.
  Proof.
    intros Hz Hin. destruct (job64_cover z Hin) as (job & H1 & H2).
    destruct (ff_zeros _ _ _ _ _ _ (proj2 (job64_found job H1)) z Hz H2) as (c & H3 & H4).
    exists c. split; [|exact H4]. apply in_flat_map. exists job. auto.
  Qed.

  Lemma np_canon m y : Qred (np_round m y) = np_round m y.
  Proof. apply rnd64_canon. Qed.
  Lemma np_double m y : is_double (np_round m y).
  Proof. apply is_double_iff, (rnd_idem _ rounding64). Qed.

  Lemma drain64 info q :
    let c := ffeed np_round (fdrain_context rnd64 tx ty f dflt reRan imRan prec) (map (fun r => (info, r)) q) (rc_init p sp) in
    snd c = Ok tt /\
    forall pr, In pr (reported_pairs iter (fst c)) <-> exists r, In r q /\ pr = froundRoot np_round r P'.
  Proof.
    cbn zeta. set (ctx := fdrain_context rnd64 tx ty f dflt reRan imRan prec).
    destruct (fresh_ffeed np_round np_canon ctx (map (fun r => (info, r)) q) p sp iter HI) as [F1 F2].
    assert (EP : fc_precision ctx = P').
    { unfold ctx, fdrain_context, search_precision. fold P'. cbn [fc_precision fst snd].
      destruct P' as [u v]. cbn [fst snd]. f_equal; lia. }
    split; [exact F1|]. intro pr. rewrite F2, EP. split.
    - intros (i & r & H1 & H2). apply in_map_iff in H1. destruct H1 as (r' & Hr & H1).
      injection Hr as _ <-. exists r'. auto.
    - intros (r & H1 & H2). exists info, r. split; [|exact H2]. apply in_map_iff. exists r. auto.
  Qed.

  Lemma parallel64 e info : pool_behaviour outs e ->
    (forall x', e <> PoolRaised x') /\
    let out := fparallel_calculateRoots rnd64 np_round tx ty f dflt reRan imRan prec info e (rc_init p sp) in
    snd out = Ok tt /\
    let pairs := reported_pairs iter (fst out) in
    all_doubles pairs /\
    genuine64 (13 / 20) P' P zeros reRan imRan pairs /\
    (separated (5 / 4) P zeros -> orders64 (13 / 20) P' P zeros reRan imRan pairs) /\
    (forall q, e = PoolDone q ->
       all_found (13 / 20) P' zeros reRan imRan pairs /\
       (separated (13 / 10) P' zeros -> exactly_once (13 / 20) P' zeros reRan imRan pairs)).
  Proof.
    intro HB.
    assert (Hreq : forall z, requested reRan imRan z -> zin (rect_of x) z)
      by (intro z; apply (frect_requested f df dflt reRan imRan prec k tx ty S1 S2 B1 B2)).
    assert (Halm : forall z, zin (rect_of x) z -> about_requested P reRan imRan z)
      by (intro z; apply (frect_about f df dflt reRan imRan prec k tx ty S1 S2 B1 B2)).
    assert (Hsnd : forall r, snd (froundRoot np_round r P') = snd r) by reflexivity.
    pose proof p_cells as Hcells. pose proof p_small as Hsmall. pose proof p_near as Hnear.
    pose proof p_same as Hsame. pose proof p_zeros as Hzeros.
    assert (Hdoubles : forall q pairs, (forall pr, In pr pairs <-> exists r, In r q /\ pr = froundRoot np_round r P') ->
      all_doubles pairs).
    { intros q pairs Hpr c j Hc. apply Hpr in Hc. destruct Hc as (r & _ & Er). injection Er as -> _.
      cbn [re im fst snd]. split; apply np_double. }
    destruct e as [q|q|x'].
    - destruct HB as [_ HB]. apply interleaving_perm in HB.
      pose proof (p_roots q HB) as Hroots.
      destruct (drain64 info q) as [F1 Hpr].
      split; [intros x' C; discriminate C|]. cbn zeta. cbn [fparallel_calculateRoots].
      split; [exact F1|]. set (pairs := reported_pairs iter _) in *.
      split; [exact (Hdoubles q pairs Hpr)|].
      split; [eapply g_genuine with (cen := fcenter rnd64) (rr := fun r => froundRoot np_round r P'); eassumption|].
      split; [intro Hs; eapply g_orders with (cen := fcenter rnd64) (rr := fun r => froundRoot np_round r P'); eassumption|].
      intros q' _. split; [eapply g_found with (cen := fcenter rnd64) (rr := fun r => froundRoot np_round r P'); eassumption|].
      intro Hs. assert (Hs1 : separated (5 / 4) P zeros).
      { assert (Hten : forall d, Q2R (pow10 (- (d + 1))) = (Q2R (pow10 (- d)) * / 10)%R).
        { intro d. rewrite (Qeq_eqR _ _ (pow10_opp_succ d)), Q2R_mult. f_equal.
          unfold Q2R; cbn [Qnum Qden]; apply Rmult_1_l. }
        intros z1 z2 H1 H2 A B. unfold P, search_precision in A, B. fold P' in A, B. cbn [fst snd] in A, B.
        rewrite Hten in A, B. apply Hs; [exact H1|exact H2| |];
          pose proof (Q2R_pow10_pos (- fst P')); pose proof (Q2R_pow10_pos (- snd P')); Lra.lra. }
      replace (13 / 10)%R with (2 * (13 / 20))%R in Hs by field.
      eapply g_unique with (cen := fcenter rnd64) (rr := fun r => froundRoot np_round r P'); eassumption.
    - destruct HB as (outs' & HF & HB). apply interleaving_perm in HB.
      assert (Hsub : forall r, In r q -> In r (List.concat (map fst outs))).
      { intros r Hr. eapply Permutation_in in Hr; [|symmetry; exact HB].
        apply in_concat in Hr. destruct Hr as (l & H1 & H2).
        destruct (Forall2_prefix_in _ _ _ _ HF H1 H2) as (l2 & H3 & H4).
        apply in_concat. exists l2. auto. }
      pose proof (p_roots _ (Permutation_refl _)) as Hroots.
      destruct (drain64 info q) as [F1 Hpr].
      set (full := map (fun r => froundRoot np_round r P') (List.concat (map fst outs))).
      assert (Hfp : forall pr, In pr full <-> exists r, In r (List.concat (map fst outs)) /\ pr = froundRoot np_round r P').
      { intro pr. unfold full. rewrite in_map_iff. split; intros (r & H1 & H2); exists r; auto. }
      split; [intros x' C; discriminate C|]. cbn zeta. cbn [fparallel_calculateRoots].
      split; [exact F1|]. set (pairs := reported_pairs iter _) in *.
      assert (Hincl : forall pr, In pr pairs -> In pr full).
      { intros pr H. apply Hpr in H. destruct H as (r & H1 & H2). apply Hfp. exists r. auto. }
      split; [exact (Hdoubles q pairs Hpr)|].
      split; [|split].
      + assert (G : genuine64 (13 / 20) P' P zeros reRan imRan full)
          by (eapply g_genuine with (cen := fcenter rnd64) (rr := fun r => froundRoot np_round r P'); eassumption).
        intros c j H. apply G, Hincl, H.
      + intro Hs. assert (G : orders64 (13 / 20) P' P zeros reRan imRan full)
          by (eapply g_orders with (cen := fcenter rnd64) (rr := fun r => froundRoot np_round r P'); eassumption).
        intros c j H. apply G, Hincl, H.
      + intros q' C. discriminate C.
    - exfalso. destruct HB as (o & H1 & H2). unfold outs in H1. apply in_map_iff in H1.
      destruct H1 as (job & <- & H1). rewrite (proj1 (job64_found job H1)) in H2. discriminate H2.
  Qed.
End ParallelSearch.
