(** Parallel searches with the summation estimator, chunk by chunk. *)
From Coq Require Import Reals Qreals Qminmax.
From Verif Require Import PyBase Rounding_Model Rounding_Proofs Poly_Model Container_Model Container_Spec Finder_Model Finder_Spec Finder_Proofs
  Refine_Model Refine_Spec Zeros_Spec Zeros_Proofs Cache_Model
  Sum_Model Sum_Spec Arg_Spec EndToEnd_Model EndToEnd_Spec EndToEnd_Proofs EndToEnd_Proofs2 EndToEnd_Proofs3
  Whole_Model Whole_Grid Whole_Entry Whole_Inv Whole_Search Whole_Spec Whole_Proofs Whole_Proofs2
  Assist_Spec Assist_Proofs Assist_Proofs2 Assist_Proofs3 Chunk_Model Chunk_Spec Chunk_Proofs Chunk_Frame.
From Coq Require Import Lqa Lra.
Open Scope R_scope.

Lemma seq_pair i : forall k m l1 a b l2, map (i : nat -> rctx) (seq k m) = l1 ++ a :: b :: l2 ->
  exists j, (j + 1 < k + m)%nat /\ a = i j /\ b = i (j + 1)%nat.
Proof.
  intros k m. revert k. induction m as [|m IH]; intros k l1 a b l2 H; [destruct l1; discriminate|].
  cbn [seq map] in H. destruct l1 as [|c l1]; cbn [app] in H.
  - injection H as <- H. destruct m; [discriminate|]. cbn [seq map] in H. injection H as <- _. exists k.
    split; [lia|]. split; [reflexivity|]. f_equal. lia.
  - injection H as _ H. destruct (IH (Datatypes.S k) l1 a b l2 H) as (j & J1 & J2 & J3). exists j. split; [lia|auto].
Qed.

Section Chunked.
  Variables (g : cplx -> cR) (zeros : list point) (turns : R -> Q) (eps delta : R) (mp : Q) (n : nat)
    (eprec : Z * Z) (fuel : nat) (debug : bool) (secant : cplx -> cplx -> res cplx) (newton : cplx -> res cplx)
    (polyroots : list cplx -> res (list cplx)) (has_df progress : bool).
  Notation E := (sum_env turns g delta mp n eprec fuel debug secant newton polyroots has_df progress).
  Hypothesis delta_pos : 0 < delta.
  Hypothesis n_big : (2 <= n)%nat.
  Hypothesis fuel_big : (100 * n + 3 <= fuel)%nat.
  Hypothesis turns_ok : faithful turns eps.
  Variables (m depth : nat) (f : holoFunc) (df : option holoFunc) (dflt : Z * Z) (reRan imRan : Q * Q)
    (prec p : option (Z * Z)) (sp : Z * Z) (iter : list root -> list root).
  Notation P := (search_precision dflt prec).
  Notation P' := (match prec with Some q => q | None => dflt end).
  Notation x := (serial_context f df dflt reRan imRan prec).
  Notation jobs := (createRootJobs m x).
  Hypothesis m_pos : (1 <= m)%nat.
  Variable v : variant.
  Hypothesis HV : v <> PolyV.

  Lemma piece_inside job z : In job jobs -> in_rect (rect_of job) z -> in_rect (rect_of x) z.
  Proof.
    intros H Hz. destruct (rect_wide f df dflt reRan imRan prec) as [W1 W2].
    assert (S : sub_rect (rect_of job) (rect_of x)).
    { apply (jobs_in m x m_pos) in H. destruct H as (i & j & Hi & Hj & ->).
      unfold rect_of, sub_rect, Finder_Proofs.cell in *. cbn [x1 x2 y1 y2 cx_reRan cx_imRan fst snd] in *.
      pose proof (linspace_pt_mono (fst (cx_reRan x)) (snd (cx_reRan x)) m 0 i m_pos ltac:(apply Qlt_le_weak; exact W1) ltac:(lia)).
      pose proof (linspace_pt_mono (fst (cx_reRan x)) (snd (cx_reRan x)) m (i+1) m m_pos ltac:(apply Qlt_le_weak; exact W1) ltac:(lia)).
      pose proof (linspace_pt_mono (fst (cx_imRan x)) (snd (cx_imRan x)) m 0 j m_pos ltac:(apply Qlt_le_weak; exact W2) ltac:(lia)).
      pose proof (linspace_pt_mono (fst (cx_imRan x)) (snd (cx_imRan x)) m (j+1) m m_pos ltac:(apply Qlt_le_weak; exact W2) ltac:(lia)).
      rewrite linspace_pt_0 in *. rewrite linspace_pt_n in * by exact m_pos. auto. }
    destruct S as (S1 & S2 & S3 & S4). destruct Hz as [[Z1 Z2] [Z3 Z4]]. repeat split; Lqa.lra.
  Qed.

  Lemma job_facts job : In job jobs ->
    (x1 (rect_of job) < x2 (rect_of job) /\ y1 (rect_of job) < y2 (rect_of job))%Q /\ cx_precision job = P.
  Proof. exact (job_wide m x job m_pos (rect_wide f df dflt reRan imRan prec)). Qed.
  Lemma cell_in i j : (i < m)%nat -> (j < m)%nat -> In (Finder_Proofs.cell m x i j) jobs.
  Proof.
    intros Hi Hj. rewrite createRootJobs_cells. apply in_flat_map. exists i. split; [apply in_seq; lia|]. apply in_map. apply in_seq. lia.
  Qed.
  Lemma cell_below i j : (j + 1 < m)%nat -> (y2 (rect_of (Finder_Proofs.cell m x i j)) < y2 (rect_of x))%Q.
  Proof.
    intro J1. pose proof (rect_wide f df dflt reRan imRan prec) as [_ W2]. unfold rect_of, Finder_Proofs.cell in *. cbn [y2 y1 cx_imRan fst snd] in *.
    pose proof (linspace_strict (fst (cx_imRan x)) (snd (cx_imRan x)) m (j + 1) m_pos W2).
    pose proof (linspace_pt_mono (fst (cx_imRan x)) (snd (cx_imRan x)) m (j + 1 + 1) m m_pos ltac:(apply Qlt_le_weak; exact W2) ltac:(lia)) as MO.
    rewrite linspace_pt_n in MO by exact m_pos. eapply Qlt_le_trans; eassumption.
  Qed.

  (** With the factorisation made explicit. *)
  Section Explicit.
    Variables (L eta : R) (rho theta : cplx -> R).
    Hypothesis F1 : forall z z', ceq z z' -> g z = g z'.
    Hypothesis F2 : 0 <= L.
    Hypothesis F3 : forall z, in_rect (rect_of x) z -> 0 < rho z /\
      g z = cmulR (zero_product zeros z) (rho z * cos (theta z), rho z * sin (theta z)).
    Hypothesis F4 : forall z z', in_rect (rect_of x) z -> in_rect (rect_of x) z' ->
      Rabs (theta z' - theta z) <= L * (Rabs (Q2R (re z' - re z)) + Rabs (Q2R (im z' - im z))).
    Hypothesis HW : forall job q, In job jobs -> cell_of P (rect_of job) q -> well_sampled n eta L zeros q.
    Hypothesis HBd : 4 * eta / PI + 4 * eps <= 1 / 5.
    Notation K := (fun (job : rctx) (s : ecache * sum_state R) =>
      lower g zeros eta theta n (rect_of job) (y1 (rect_of job)) (snd s)).

    Lemma job_agree job s : In job jobs -> K job s ->
      (exists s' l, calcRoots (env_for E job) v depth (rect_of job) s = (s', l, Raised IndexError) /\ tight (rect_of job) n (cx_precision job)) \/
      calcRoots (env_for E job) v depth (rect_of job) s = calcRoots (repaired zeros (env_for E job)) v depth (rect_of job) s.
    Proof.
      intros Hj HK. destruct (job_facts job Hj) as [Wj EP].
      assert (G3 : forall z, in_rect (rect_of job) z -> 0 < rho z /\
        g z = cmulR (zero_product zeros z) (rho z * cos (theta z), rho z * sin (theta z)))
        by (intros z Hz; apply F3, (piece_inside job z Hj Hz)).
      assert (G4 : forall z z', in_rect (rect_of job) z -> in_rect (rect_of job) z' ->
        Rabs (theta z' - theta z) <= L * (Rabs (Q2R (re z' - re z)) + Rabs (Q2R (im z' - im z))))
        by (intros z z' Hz Hz'; apply F4; apply (piece_inside job); assumption).
      apply (calc_agree g zeros turns eps delta mp n eprec fuel debug secant newton polyroots has_df progress
        delta_pos n_big fuel_big turns_ok job Wj L eta rho theta F1 F2 G3 G4) with (old := from_below g zeros eta theta n job).
      - rewrite EP. intros q Hq. exact (HW job q Hj Hq).
      - exact HBd.
      - intros p0 i l t w Vp. exact (below_start g zeros L eta theta F1 n job Wj G4 p0 i l t w Vp).
      - intros p0 i l t w Vp. exact (below_end g zeros L eta theta F1 n job Wj G4 p0 i l t w Vp).
      - apply lower_from_below. exact HK.
      - exact HV.
    Qed.

    (** In a column in which no upper side is cut every job finds harmless entries only. *)
    Lemma column_keeps st i : (i < m)%nat -> 
      (forall j, (j + 1 < m)%nat -> upper_side_whole zeros P (rect_of (Finder_Proofs.cell m x i j))) ->
      follows E v depth new_estimator st new_estimator (map (Finder_Proofs.cell m x i) (seq 0 m)) ->
      forall job, In job (map (Finder_Proofs.cell m x i) (seq 0 m)) -> K job (st job).
    Proof.
      intros Hi HU HF. pose proof (bound_eta turns eps turns_ok eta HBd) as [_ ES].
      apply (follows_keeps E v depth new_estimator K st) with (s := new_estimator); [| | |exact HF].
      - intro y. apply fresh_lower.
      - intros l1 a b l2 s El HK HN. destruct (seq_pair _ _ _ _ _ _ _ El) as (j & J1 & -> & ->).
        pose proof (cell_in i j Hi ltac:(lia)) as Ha. destruct (job_facts _ Ha) as [Wj EP].
        unfold job_leaves. destruct (job_agree (Finder_Proofs.cell m x i j) s Ha HK) as [(s' & l & H1 & _)|H1].
        { unfold worker_output, argument_algorithm in HN. rewrite H1 in HN. discriminate HN. }
        rewrite H1.
        assert (LO : lower g zeros eta theta n (rect_of (Finder_Proofs.cell m x i j)) (y2 (rect_of (Finder_Proofs.cell m x i j)))
          (snd (fst (fst (calcRoots (repaired zeros (env_for E (Finder_Proofs.cell m x i j))) v depth (rect_of (Finder_Proofs.cell m x i j)) s))))).
        { apply (run_lower g zeros L eta rho theta F1 F2 ES turns delta mp n eprec fuel debug secant newton polyroots has_df progress
            delta_pos n_big fuel_big (Finder_Proofs.cell m x i j) Wj).
          - intros z Hz. apply F3, (piece_inside _ z Ha Hz).
          - intros z z' Hz Hz'. apply F4; apply (piece_inside (Finder_Proofs.cell m x i j)); assumption.
          - rewrite EP. intros q Hq. exact (HW _ q Ha Hq).
          - rewrite EP. apply HU. lia.
          - exact HV.
          - apply lower_raise; [exact Wj|]. exact HK. }
        destruct (job_facts (Finder_Proofs.cell m x i (j + 1)) (cell_in i (j + 1) Hi ltac:(lia))) as [[_ Wb] _].
        revert LO. apply (lower_next g zeros eta theta n (rect_of (Finder_Proofs.cell m x i j)) (rect_of (Finder_Proofs.cell m x i (j + 1)))); try reflexivity.
        + apply Qle_refl.
        + apply Qlt_le_weak. exact Wb.
      - destruct (map (Finder_Proofs.cell m x i) (seq 0 m)); [exact Logic.I|]. apply fresh_lower.
    Qed.

    Lemma job_output job s : In job jobs -> K job s ->
      (snd (worker_output E v depth s job) = Some IndexError /\ ~ dense n P (rect_of job)) \/
      worker_output E v depth s job = worker_output (repaired zeros E) v depth s job.
    Proof.
      intros Hj HK. destruct (job_facts job Hj) as [Wj EP].
      destruct (job_agree job s Hj HK) as [(s' & l & H1 & H2)|H1].
      - left. unfold worker_output, argument_algorithm. rewrite H1. split; [reflexivity|].
        intro HD. rewrite EP in H2. exact (dense_loose n P _ Wj n_big HD H2).
      - right. unfold worker_output, argument_algorithm. rewrite repaired_env_for, H1. reflexivity.
    Qed.
  End Explicit.

  Hypothesis HR : resolved_pieces g zeros n eps P (rect_of x) jobs.
  Hypothesis HU : forall job, In job jobs -> (y2 (rect_of job) < y2 (rect_of x))%Q -> upper_side_whole zeros P (rect_of job).

  Lemma piece_reliable job : In job jobs -> reliable (repaired zeros E) zeros P (rect_of job).
  Proof.
    intro H. destruct HR as (L & eta & _ & HW & _). apply repaired_reliable.
    intros q Hq. exact (sampled_avoids n eta L zeros q (HW job q H Hq)).
  Qed.

  Lemma chunk_agree e : pool_behaviour (pool_outputs E v depth new_estimator m x) e ->
    exists st, pool_behaviour (map (fun job => worker_output E v depth (st job) job) jobs) e /\
      forall job, In job jobs ->
      (snd (worker_output E v depth (st job) job) = Some IndexError /\ ~ dense n P (rect_of job)) \/
      worker_output E v depth (st job) job = worker_output (repaired zeros E) v depth (st job) job.
  Proof.
    intro HB. pose proof (rect_wide f df dflt reRan imRan prec : (x1 (rect_of x) < x2 (rect_of x) /\ y1 (rect_of x) < y2 (rect_of x))%Q) as W.
    destruct (pool_single E v depth new_estimator m x e m_pos W HB) as (st & HS & HF). exists st. split; [exact HS|].
    destruct HR as (L & eta & (F1 & F2 & rho & theta & F3 & F4) & HW & HBd).
    intros job Hj. apply (job_output L eta rho theta F1 F2 F3 F4 HW HBd job (st job) Hj).
    pose proof Hj as Hj'. rewrite createRootJobs_cells in Hj. apply in_flat_map in Hj. destruct Hj as (i & Hi & Hj). apply in_seq in Hi.
    apply (column_keeps L eta rho theta F1 F2 F3 F4 HW HBd st i ltac:(lia)); [| |exact Hj].
    - intros j J. apply HU; [apply cell_in; lia|]. apply cell_below. exact J.
    - apply HF. rewrite (get_tasks_jobs m x m_pos). apply (in_map (fun i => map (Finder_Proofs.cell m x i) (seq 0 m))). apply in_seq. lia.
  Qed.

  (** From the answers of the repaired pool to those of the real one. *)
  Lemma chunk_transfer e : pool_behaviour (pool_outputs E v depth new_estimator m x) e ->
    exists st, match e with
    | PoolRaised x' => pool_behaviour (map (fun job => worker_output (repaired zeros E) v depth (st job) job) jobs) e \/
        (x' = IndexError /\ exists job, In job jobs /\ ~ dense n P (rect_of job))
    | PoolDone _ => pool_behaviour (map (fun job => worker_output (repaired zeros E) v depth (st job) job) jobs) e
    | PoolInterrupted _ => (forall job, In job jobs -> dense n P (rect_of job)) ->
        pool_behaviour (map (fun job => worker_output (repaired zeros E) v depth (st job) job) jobs) e
    end.
  Proof.
    intro HB. destruct (chunk_agree e HB) as (st & HS & HA). exists st. destruct e as [q|q|x'].
    - destruct HS as [H1 H2]. assert (Eo : map (fun job => worker_output E v depth (st job) job) jobs =
        map (fun job => worker_output (repaired zeros E) v depth (st job) job) jobs).
      { apply map_ext_in. intros job Hj. destruct (HA job Hj) as [[He _]|He]; [|exact He].
        rewrite (H1 _ (in_map (fun job => worker_output E v depth (st job) job) jobs job Hj)) in He. discriminate. }
      rewrite Eo in H1, H2. exact (conj H1 H2).
    - intro HD. assert (Eo : map (fun job => worker_output E v depth (st job) job) jobs =
        map (fun job => worker_output (repaired zeros E) v depth (st job) job) jobs).
      { apply map_ext_in. intros job Hj. destruct (HA job Hj) as [[_ He]|He]; [exfalso; exact (He (HD job Hj))|exact He]. }
      rewrite Eo in HS. exact HS.
    - destruct HS as (o & Ho & Hx). apply in_map_iff in Ho. destruct Ho as (job & <- & Hj).
      destruct (HA job Hj) as [[He HD]|He].
      + right. rewrite Hx in He. injection He as ->. split; [reflexivity|]. exists job. auto.
      + left. exists (worker_output (repaired zeros E) v depth (st job) job). split.
        * exact (in_map (fun job => worker_output (repaired zeros E) v depth (st job) job) jobs job Hj).
        * rewrite <- He. exact Hx.
  Qed.
End Chunked.

Section Results.
  Variables (g : cplx -> cR) (zeros : list point) (turns : R -> Q) (eps delta : R) (mp : Q) (n : nat)
    (eprec : Z * Z) (fuel : nat) (debug : bool) (secant : cplx -> cplx -> res cplx) (newton : cplx -> res cplx)
    (polyroots : list cplx -> res (list cplx)) (has_df progress : bool).
  Notation E := (sum_env turns g delta mp n eprec fuel debug secant newton polyroots has_df progress).
  Hypothesis delta_pos : 0 < delta.
  Hypothesis n_big : (2 <= n)%nat.
  Hypothesis fuel_big : (100 * n + 3 <= fuel)%nat.
  Hypothesis turns_ok : faithful turns eps.
  Variables (m depth : nat) (f : holoFunc) (df : option holoFunc) (dflt : Z * Z) (reRan imRan : Q * Q)
    (prec p : option (Z * Z)) (sp : Z * Z) (iter : list root -> list root).
  Notation P := (search_precision dflt prec).
  Notation P' := (match prec with Some q => q | None => dflt end).
  Notation x := (serial_context f df dflt reRan imRan prec).
  Notation jobs := (createRootJobs m x).
  Hypothesis m_pos : (1 <= m)%nat.
  Hypothesis HI : iteration_order iter.
  Hypothesis HR : resolved_pieces g zeros n eps P (rect_of x) jobs.
  Hypothesis HU : forall job, In job jobs -> (y2 (rect_of job) < y2 (rect_of x))%Q -> upper_side_whole zeros P (rect_of job).

  Notation transfer v HV := (chunk_transfer g zeros turns eps delta mp n eprec fuel debug secant newton polyroots has_df progress
    delta_pos n_big fuel_big turns_ok m depth f df dflt reRan imRan prec m_pos v HV HR HU).
  Lemma pieces_reliable job : In job jobs -> reliable (repaired zeros E) zeros P (rect_of job).
  Proof. exact (piece_reliable g zeros turns eps delta mp n eprec fuel debug secant newton polyroots has_df progress m f df dflt reRan imRan prec HR job). Qed.

  Lemma C70_parallel_lemma e info : pool_behaviour (pool_outputs E Simple depth new_estimator m x) e ->
    let out := parallel_calculateRoots f dflt reRan imRan prec info e (rc_init p sp) in
    (forall x', e = PoolRaised x' ->
       snd out = Err RecursionError \/
       (snd out = Err IndexError /\ exists job, In job jobs /\ ~ dense n P (rect_of job))) /\
    (forall q, e = PoolDone q ->
       snd out = Ok tt /\
       let pairs := reported_pairs iter (fst out) in
       all_found (11 / 20) P' zeros reRan imRan pairs /\
       all_genuine (11 / 20) P' P zeros reRan imRan pairs /\
       (separated 1 P zeros -> orders_right (11 / 20) P' P zeros reRan imRan pairs) /\
       (separated (11 / 10) P' zeros -> exactly_once (11 / 20) P' zeros reRan imRan pairs)).
  Proof.
    intros HB out. destruct (transfer Simple ltac:(discriminate) e HB) as (st & HS).
    pose proof (C63_parallel_any_depth_lemma _ (repaired zeros E) zeros depth m st
      f df dflt reRan imRan prec p sp iter m_pos HI pieces_reliable) as HL. cbv zeta in HL.
    split.
    - intros x' ->. destruct HS as [HS|[-> HD]].
      + left. exact (proj1 (HL (PoolRaised x') info HS) x' eq_refl).
      + right. split; [reflexivity|exact HD].
    - intros q ->. exact (proj2 (HL (PoolDone q) info HS) q eq_refl).
  Qed.

  Lemma dense_transfer v (HV : v <> PolyV) e : (forall job, In job jobs -> dense n P (rect_of job)) ->
    pool_behaviour (pool_outputs E v depth new_estimator m x) e ->
    exists st, pool_behaviour (map (fun job => worker_output (repaired zeros E) v depth (st job) job) jobs) e.
  Proof.
    intros HD HB. destruct (transfer v HV e HB) as (st & HS). exists st. destruct e as [q|q|x'].
    - exact HS.
    - exact (HS HD).
    - destruct HS as [HS|(_ & job & Hj & N)]; [exact HS|]. exfalso. exact (N (HD job Hj)).
  Qed.

  Lemma C70_parallel_complete_lemma a b e info :
    (forall job, In job jobs -> dense n P (rect_of job)) ->
    halvings (Qabs (fst reRan - snd reRan) + 3 * pow10 (- fst P)) (fst P) a ->
    halvings (Qabs (fst imRan - snd imRan) + 7 * pow10 (- snd P)) (snd P) b ->
    (a + b < depth)%nat -> pool_behaviour (pool_outputs E Simple depth new_estimator m x) e ->
    (forall x', e <> PoolRaised x') /\
    let out := parallel_calculateRoots f dflt reRan imRan prec info e (rc_init p sp) in
    snd out = Ok tt /\
    let pairs := reported_pairs iter (fst out) in
    all_genuine (11 / 20) P' P zeros reRan imRan pairs /\
    (separated 1 P zeros -> orders_right (11 / 20) P' P zeros reRan imRan pairs) /\
    (forall q, e = PoolDone q ->
       all_found (11 / 20) P' zeros reRan imRan pairs /\
       (separated (11 / 10) P' zeros -> exactly_once (11 / 20) P' zeros reRan imRan pairs)).
  Proof.
    intros HD Ha Hb Hd HB. destruct (dense_transfer Simple ltac:(discriminate) e HD HB) as (st & HS).
    exact (C63_parallel_lemma (repaired zeros E) zeros depth m st
      f df dflt reRan imRan prec p sp iter a b m_pos HI Ha Hb Hd pieces_reliable e info HS).
  Qed.

  (** Newton-assisted. *)
  Hypothesis HC : forall job, In job jobs -> converging secant newton df zeros P (rect_of job).
  Lemma assisted job : In job jobs -> reliable (repaired zeros E) zeros P (rect_of job) /\
    converging (e_secant (repaired zeros E)) (e_newton (repaired zeros E)) df zeros P (rect_of job).
  Proof. intro H. split; [exact (pieces_reliable job H)|exact (HC job H)]. Qed.

  Lemma C75_sum_parallel_lemma e info : pool_behaviour (pool_outputs E NewtonV depth new_estimator m x) e ->
    let out := parallel_calculateRoots f dflt reRan imRan prec info e (rc_init p sp) in
    (forall x', e = PoolRaised x' ->
       snd out = Err RecursionError \/
       (snd out = Err IndexError /\ exists job, In job jobs /\ ~ dense n P (rect_of job))) /\
    (forall q, e = PoolDone q ->
       snd out = Ok tt /\
       let pairs := reported_pairs iter (fst out) in
       all_found (11 / 20) P' zeros reRan imRan pairs /\
       all_genuine (11 / 20) P' P zeros reRan imRan pairs /\
       (separated 1 P zeros -> orders_right (11 / 20) P' P zeros reRan imRan pairs) /\
       (df = None -> separated (11 / 10) P' zeros -> exactly_once (11 / 20) P' zeros reRan imRan pairs)).
  Proof.
    intros HB out. destruct (transfer NewtonV ltac:(discriminate) e HB) as (st & HS).
    pose proof (C75_parallel_lemma (repaired zeros E) zeros depth f df dflt reRan imRan prec p sp iter HI m st
        m_pos assisted) as HL. cbv zeta in HL.
    split.
    - intros x' ->. destruct HS as [HS|[-> HD]].
      + left. exact (proj1 (HL (PoolRaised x') info HS) x' eq_refl).
      + right. split; [reflexivity|exact HD].
    - intros q ->. exact (proj2 (HL (PoolDone q) info HS) q eq_refl).
  Qed.

  Lemma C75_sum_parallel_complete_lemma a b e info :
    (forall job, In job jobs -> dense n P (rect_of job)) ->
    halvings (Qabs (fst reRan - snd reRan) + 3 * pow10 (- fst P)) (fst P) a ->
    halvings (Qabs (fst imRan - snd imRan) + 7 * pow10 (- snd P)) (snd P) b ->
    (a + b < depth)%nat -> pool_behaviour (pool_outputs E NewtonV depth new_estimator m x) e ->
    (forall x', e <> PoolRaised x') /\
    let out := parallel_calculateRoots f dflt reRan imRan prec info e (rc_init p sp) in
    snd out = Ok tt /\
    let pairs := reported_pairs iter (fst out) in
    all_genuine (11 / 20) P' P zeros reRan imRan pairs /\
    (separated 1 P zeros -> orders_right (11 / 20) P' P zeros reRan imRan pairs) /\
    (forall q, e = PoolDone q ->
       all_found (11 / 20) P' zeros reRan imRan pairs /\
       (df = None -> separated (11 / 10) P' zeros -> exactly_once (11 / 20) P' zeros reRan imRan pairs)).
  Proof.
    intros HD Ha Hb Hd HB. destruct (dense_transfer NewtonV ltac:(discriminate) e HD HB) as (st & HS).
    exact (C75_parallel_complete_lemma (repaired zeros E) zeros depth f df dflt reRan imRan prec p sp iter HI m st
        m_pos assisted a b e info Ha Hb Hd HS).
  Qed.
End Results.
