(** Serial and parallel searches of any algorithm whose runs spot all zeros. *)
From Coq Require Import Permutation Reals Qreals Qminmax.
From Verif Require Import PyBase Rounding_Model Rounding_Proofs Container_Model Container_Spec
  Container_Proofs Finder_Model Finder_Spec Finder_Proofs Poly_Model Refine_Model Refine_Spec
  Refine_Proofs Refine_Proofs2 Zeros_Spec Zeros_Proofs Refine_Proofs3 EndToEnd_Model EndToEnd_Spec
  EndToEnd_Proofs EndToEnd_Proofs2 EndToEnd_Proofs3 Assist_Spec Assist_Proofs.
Open Scope Z_scope.

(** Rounding to [P'] a value that is off by at most [t] units of 10^-P. *)
Definition rounds_within (t : R) (P : Z * Z) (u : R) (P' : Z * Z) : Prop :=
  forall c z o, within t P c z -> within u P' (fst (roundRoot (c, o) P')) z.

Lemma rounds_same t P : rounds_within t P (t + 1 / 2) P.
Proof.
  intros c z o [A B].
  pose proof (round_dec_error (fst P) (re c)) as R1. pose proof (round_dec_error (snd P) (im c)) as R2.
  apply Qabs_R in R1, R2. rewrite Q2R_mult in R1, R2. rewrite Q2R_half_1 in R1, R2.
  unfold within, roundRoot, re, im in *. cbn [fst snd] in *.
  set (e1 := Q2R (pow10 (- fst P))) in *. set (e2 := Q2R (pow10 (- snd P))) in *.
  split.
  - replace (fst z - Q2R (round_dec (fst P) (fst c)))%R
      with ((fst z - Q2R (fst c)) + (Q2R (fst c) - Q2R (round_dec (fst P) (fst c))))%R by ring.
    eapply Rle_trans; [apply Rabs_triang|]. Lra.lra.
  - replace (snd z - Q2R (round_dec (snd P) (snd c)))%R
      with ((snd z - Q2R (snd c)) + (Q2R (snd c) - Q2R (round_dec (snd P) (snd c))))%R by ring.
    eapply Rle_trans; [apply Rabs_triang|]. Lra.lra.
Qed.

Lemma ten_less d : Q2R (pow10 (- (d + 1))) = (Q2R (pow10 (- d)) * / 10)%R.
Proof.
  rewrite (Qeq_eqR _ _ (pow10_opp_succ d)), Q2R_mult. f_equal.
  unfold Q2R; cbn [Qnum Qden]; apply Rmult_1_l.
Qed.

Lemma rounds_coarser t P : rounds_within t (fst P + 1, snd P + 1) (t / 10 + 1 / 2) P.
Proof.
  intros c z o [A B]. apply rounds_same. cbn [fst snd] in A, B. rewrite ten_less in A, B.
  split; [replace (t / 10 * Q2R (pow10 (- fst P)))%R with (t * (Q2R (pow10 (- fst P)) * / 10))%R by field; exact A
         |replace (t / 10 * Q2R (pow10 (- snd P)))%R with (t * (Q2R (pow10 (- snd P)) * / 10))%R by field; exact B].
Qed.

Section Conclude.
  Variables (zeros : list point) (P P' : Z * Z) (W0 : rect) (sep once : Prop) (rs : list root) (ts : list (point * root)).
  Variables (t u : R) (reRan imRan : Q * Q) (pairs : list root).
  Hypothesis HP : spotted t zeros P W0 sep once rs ts.
  Hypothesis Hround : rounds_within t P u P'.
  Hypothesis Hreq : forall z, requested reRan imRan z -> zin W0 z.
  Hypothesis Halm : forall z, zin W0 z -> almost_requested P reRan imRan z.

  Lemma spot_found : (forall r, In r rs -> In (roundRoot r P') pairs) -> all_found u P' zeros reRan imRan pairs.
  Proof.
    intros Hpairs z Hz Hr. destruct (sp_all _ _ _ _ _ _ _ _ HP z Hz (Hreq z Hr)) as ([c k] & H).
    destruct (sp_good _ _ _ _ _ _ _ _ HP z c k H) as (_ & _ & K & Wt & _).
    exists (fst (roundRoot (c, k) P')), k. split; [|split; [exact K|apply Hround, Wt]].
    apply (Hpairs (c, k)). apply (sp_roots _ _ _ _ _ _ _ _ HP). exists z. exact H.
  Qed.

  Hypothesis Hpairs : forall pr, In pr pairs -> exists r, In r rs /\ pr = roundRoot r P'.

  Lemma pair_tag c k : In (c, k) pairs -> exists z c0, In (z, (c0, k)) ts /\ c = fst (roundRoot (c0, k) P').
  Proof.
    intro H. apply Hpairs in H. destruct H as ([c0 k0] & Hr & E). injection E as -> ->.
    apply (sp_roots _ _ _ _ _ _ _ _ HP) in Hr. destruct Hr as (z & Hz). exists z, c0. auto.
  Qed.

  Lemma spot_genuine : all_genuine u P' P zeros reRan imRan pairs.
  Proof.
    intros c k H. destruct (pair_tag c k H) as (z & c0 & Hz & ->).
    destruct (sp_good _ _ _ _ _ _ _ _ HP z c0 k Hz) as (Z1 & Z2 & K & Wt & _).
    split; [exact K|]. exists z. split; [exact Z1|]. split; [apply Halm, Z2|apply Hround, Wt].
  Qed.

  Lemma spot_orders : sep -> orders_right u P' P zeros reRan imRan pairs.
  Proof.
    intros Hs c k H. destruct (pair_tag c k H) as (z & c0 & Hz & ->).
    destruct (sp_good _ _ _ _ _ _ _ _ HP z c0 k Hz) as (Z1 & Z2 & K & Wt & O).
    exists z. split; [exact Z1|]. split; [apply Halm, Z2|]. split; [apply Hround, Wt|exact (O Hs)].
  Qed.

  Lemma spot_once : once -> sep -> separated (2 * u) P' zeros -> (forall r, In r rs -> In (roundRoot r P') pairs) ->
    exactly_once u P' zeros reRan imRan pairs.
  Proof.
    intros HO Hs Hs2 Hfull z Hz Hr. destruct (sp_all _ _ _ _ _ _ _ _ HP z Hz (Hreq z Hr)) as ([c k] & H).
    destruct (sp_good _ _ _ _ _ _ _ _ HP z c k H) as (_ & _ & K & Wt & O).
    exists (fst (roundRoot (c, k) P')), k. split; [|split; [apply Hround, Wt|split; [exact (O Hs)|]]].
    { apply (Hfull (c, k)). apply (sp_roots _ _ _ _ _ _ _ _ HP). exists z. exact H. }
    intros c' k' H' W'. destruct (pair_tag c' k' H') as (z' & c1 & Hz' & Ec).
    destruct (sp_good _ _ _ _ _ _ _ _ HP z' c1 k' Hz') as (Z1' & _ & _ & Wt' & _).
    assert (W1 : within u P' c' z') by (rewrite Ec; apply Hround, Wt').
    assert (z' = z) as -> by exact (within_separated u P' c' z' z zeros Hs2 Z1' Hz W1 W').
    pose proof (sp_once _ _ _ _ _ _ _ _ HP HO z _ _ Hz' H) as X. injection X as -> ->.
    rewrite Ec. reflexivity.
  Qed.
End Conclude.

(** What is needed to know about a run on the ranges of [x]. *)
Definition run_spots {S} (E : env S) (v : variant) (t : R) (zeros : list point) (sep once : Prop) (depth : nat) (s : S) (x : rctx) : Prop :=
  forall info, let run := argument_algorithm E v depth info s x in
  ar_end run = Some RecursionError \/
  (ar_end run = None /\ exists ts,
     spotted t zeros (cx_precision x) (rect_of x) (sep) once (map snd (ar_reports run)) ts).

(** The searches of the three algorithms spot all zeros; enough depth excludes RecursionError. *)
Lemma spots_both {S} (E : env S) v t zeros (sep once : Prop) depth s x : (1 / 2 <= t)%R -> (sep -> separated 1 (cx_precision x) zeros) -> proper (rect_of x) ->
  reliable E zeros (cx_precision x) (rect_of x) -> (v = PolyV -> cx_df x <> None) ->
  (forall q phi l o, cell_of (cx_precision x) (rect_of x) q -> proper q -> ~ sub_tolerance (cx_precision x) q ->
    solver_zone v q phi -> (Qabs (phi - inject_Z (Z.of_nat (count zeros q))) <= 1 # 5)%Q ->
    (v = NewtonV /\ newton_result (env_for E x) q phi l o) \/ (v = PolyV /\ poly_result (env_for E x) q phi l o) ->
    o = Done tt /\ exists ts, spotted t zeros (cx_precision x) q (sep) once (roots_of l) ts) ->
  run_spots E v t zeros sep once depth s x /\
  forall a b,
  (x2 (rect_of x) - x1 (rect_of x) < inject_Z (2 ^ Z.of_nat a) * pow10 (- fst (cx_precision x)))%Q ->
  (y2 (rect_of x) - y1 (rect_of x) < inject_Z (2 ^ Z.of_nat b) * pow10 (- snd (cx_precision x)))%Q ->
  (a + b < depth)%nat ->
  forall info, ar_end (argument_algorithm E v depth info s x) = None.
Proof.
  intros Ht Hsep Hp Hr Hdf Hsolve. unfold run_spots, argument_algorithm.
  destruct (calcRoots (env_for E x) v depth (rect_of x) s) as [[s' l] o] eqn:H. cbn [ar_end ar_reports].
  assert (DF : v = PolyV -> e_has_df (env_for E x) = true).
  { intro Hv. cbn. specialize (Hdf Hv). destruct (cx_df x); [reflexivity|congruence]. }
  pose proof (calcRoots_spot (env_for E x) v zeros (rect_of x) t sep once Hsep Ht Hr DF Hsolve depth s s' l o Hp H) as HC.
  split.
  - intro info. assert (D : o = OutOfFuel \/ o <> OutOfFuel) by (destruct o; [right|right|left]; congruence).
    destruct D as [->|Ho]; [left; reflexivity|right].
    destruct (HC Ho) as [-> [ts Hts]].
    split; [reflexivity|]. exists ts. rewrite map_map. cbn [snd]. rewrite map_id. exact Hts.
  - intros a b Ha Hb Hd info.
    pose proof (C20_depth (env_for E x) v (rect_of x) s depth a b s' l o) as HD.
    pose proof (proj1 (HD Ha Hb H) Hd) as Ho. destruct (HC Ho) as [-> _]. reflexivity.
Qed.

(** ** Serial finder *)
Section Serial.
  Context {S : Type} (E : env S).
  Variables (v : variant) (t u : R) (zeros : list point) (sep once : Prop) (depth : nat) (info : root -> bool) (s : S).
  Variables (f : holoFunc) (df : option holoFunc) (dflt : Z * Z) (reRan imRan : Q * Q) (prec : option (Z * Z)).
  Variables (p : option (Z * Z)) (sp : Z * Z) (iter : list root -> list root).
  Let P := search_precision dflt prec.
  Let x := serial_context f df dflt reRan imRan prec.
  Let out := calculateRoots f df dflt (argument_algorithm E v depth info s) reRan imRan prec (rc_init p sp).
  Hypothesis HI : iteration_order iter.
  Hypothesis Hu : u = (t + 1 / 2)%R.
  Hypothesis HS : run_spots E v t zeros sep once depth s x.

  Lemma serial_pairs :
    (ar_end (argument_algorithm E v depth info s x) = None -> snd out = Ok tt) /\
    (ar_end (argument_algorithm E v depth info s x) = Some RecursionError -> snd out = Err RecursionError) /\
    forall pr, In pr (reported_pairs iter (fst out)) <->
      exists r, In r (map snd (ar_reports (argument_algorithm E v depth info s x))) /\ pr = roundRoot r P.
  Proof.
    set (run := argument_algorithm E v depth info s x).
    pose proof (fun pr => fresh_feed (toFilterContext x) (ar_reports run) p sp iter pr HI) as HF.
    assert (Hout : out = (fst (feed (toFilterContext x) (ar_reports run) (rc_init p sp)),
       match ar_end run with None => Ok tt | Some KeyboardInterrupt => Ok tt | Some e => Err e end)).
    { unfold out, calculateRoots. fold x. fold run. cbv zeta.
      destruct (HF ((0, 0)%Q, 0)) as [H1 _].
      destruct (feed (toFilterContext x) (ar_reports run) (rc_init p sp)) as [c1 r1].
      cbn [snd] in H1. subst r1. destruct (ar_end run) as [[]|]; reflexivity. }
    rewrite Hout. cbn [fst snd]. split; [intros ->; reflexivity|]. split; [intros ->; reflexivity|].
    intro pr. rewrite (proj2 (HF pr)). split.
    - intros (i & r & H1 & H2). exists r. split; [|exact H2]. apply in_map_iff. exists (i, r). auto.
    - intros (r & H1 & H2). apply in_map_iff in H1. destruct H1 as ([i r'] & H1 & H3).
      cbn in H1. subst r'. exists i, r. auto.
  Qed.

  Lemma serial_spots :
    (snd out = Err RecursionError /\ ar_end (argument_algorithm E v depth info s x) = Some RecursionError) \/
    (snd out = Ok tt /\
     let pairs := reported_pairs iter (fst out) in
     all_found u P zeros reRan imRan pairs /\
     all_genuine u P P zeros reRan imRan pairs /\
     (sep -> orders_right u P P zeros reRan imRan pairs) /\
     (once -> sep -> separated (2 * u) P zeros -> exactly_once u P zeros reRan imRan pairs)).
  Proof.
    destruct serial_pairs as (Ho1 & Ho2 & Hpr). destruct (HS info) as [He|[He [ts Hts]]].
    - left. auto.
    - right. split; [exact (Ho1 He)|]. intro pairs.
      assert (Hreq : forall z, requested reRan imRan z -> zin (rect_of x) z) by (intro z; apply rect_requested).
      assert (Halm : forall z, zin (rect_of x) z -> almost_requested P reRan imRan z) by (intro z; apply rect_almost).
      assert (HRo : rounds_within t P u P) by (rewrite Hu; apply rounds_same).
      assert (P1 : forall pr, In pr pairs -> exists r, In r (map snd (ar_reports (argument_algorithm E v depth info s x))) /\ pr = roundRoot r P)
        by (intros pr H; apply Hpr, H).
      assert (P2 : forall r, In r (map snd (ar_reports (argument_algorithm E v depth info s x))) -> In (roundRoot r P) pairs)
        by (intros r H; apply Hpr; exists r; auto).
      split; [exact (spot_found _ _ _ _ _ _ _ _ _ _ _ _ _ Hts HRo Hreq P2)|].
      split; [exact (spot_genuine _ _ _ _ _ _ _ _ _ _ _ _ _ Hts HRo Halm P1)|].
      split; [exact (spot_orders _ _ _ _ _ _ _ _ _ _ _ _ _ Hts HRo Halm P1)|].
      intros O S1 S2. exact (spot_once _ _ _ _ _ _ _ _ _ _ _ _ _ Hts HRo Hreq P1 O S1 S2 P2).
  Qed.
End Serial.

(** ** Parallel finder *)
Section Parallel.
  Context {S : Type} (E : env S).
  Variables (v : variant) (t u : R) (zeros : list point) (sep once : Prop) (depth n : nat) (st : rctx -> S).
  Variables (f : holoFunc) (df : option holoFunc) (dflt : Z * Z) (reRan imRan : Q * Q) (prec : option (Z * Z)).
  Variables (p : option (Z * Z)) (sp : Z * Z) (iter : list root -> list root).
  Let P := search_precision dflt prec.
  Let P' := match prec with Some q => q | None => dflt end.
  Let x := serial_context f df dflt reRan imRan prec.
  Let jobs := createRootJobs n x.
  Let out_of := fun job => worker_output E v depth (st job) job.
  Let outs := map out_of jobs.
  Hypothesis Hn : (1 <= n)%nat.
  Hypothesis HI : iteration_order iter.
  Hypothesis Hu : u = (t / 10 + 1 / 2)%R.
  Hypothesis HA : forall job, In job jobs -> avoids zeros (rect_of job).
  Hypothesis HS : forall job, In job jobs -> run_spots E v t zeros sep once depth (st job) job.

  Lemma job_spots job : In job jobs -> snd (out_of job) = Some RecursionError \/
    (snd (out_of job) = None /\ exists ts, spotted t zeros P (rect_of job) (sep) once (fst (out_of job)) ts).
  Proof.
    intro H. pose proof (HS job H (fun _ => false)) as X. cbv zeta in X.
    rewrite (proj2 (proj2 (job_inside 1 n f df dflt reRan imRan prec 0 0 Hn (Nat.lt_0_succ 0) job H))) in X. exact X.
  Qed.

  Notation cell_ij := (fun ij : nat * nat => cell n x (fst ij) (snd ij)).
  Lemma jobs_indices : exists ijs, jobs = map cell_ij ijs /\ forall ij, In ij ijs <-> (fst ij < n)%nat /\ (snd ij < n)%nat.
  Proof.
    exists (flat_map (fun i => map (pair i) (seq 0 n)) (seq 0 n)). split.
    - unfold jobs. rewrite createRootJobs_cells. generalize (seq 0 n) at 2 4. intro l.
      induction l as [|i l IH]; [reflexivity|]. cbn [flat_map]. rewrite map_app, IH, map_map. reflexivity.
    - intros [i j]. rewrite in_flat_map. cbn [fst snd]. split.
      + intros (i' & Hi & H). apply in_map_iff in H. destruct H as (j' & X & Hj). injection X as -> ->.
        apply in_seq in Hi, Hj. lia.
      + intros [Hi Hj]. exists i. split; [apply in_seq; lia|]. apply in_map_iff. exists j. split; [reflexivity|apply in_seq; lia].
  Qed.

  Lemma union_spots ijs : (forall ij, In ij ijs -> (fst ij < n)%nat /\ (snd ij < n)%nat) ->
    let js := map cell_ij ijs in
    (forall job, In job js -> snd (out_of job) = None) ->
    exists ts, (forall r, In r (List.concat (map (fun job => fst (out_of job)) js)) <-> exists z, In (z, r) ts) /\
      (forall z c k, In (z, (c, k)) ts -> In z zeros /\ (exists job, In job js /\ zin (rect_of job) z) /\ 1 <= k /\ within t P c z /\
        (sep -> forall dec : (forall a b : point, {a = b} + {a <> b}), k = Z.of_nat (count_occ dec zeros z))) /\
      (forall z, In z zeros -> (exists job, In job js /\ zin (rect_of job) z) -> exists r, In (z, r) ts) /\
      (once -> forall z r r', In (z, r) ts -> In (z, r') ts -> r = r').
  Proof.
    induction ijs as [|ij ijs IH]; intros H1 js H3.
    - exists []. cbn. split; [intro r; split; [intros []|intros (z & [])]|]. split; [intros z c k []|].
      split; [intros z _ (job & [] & _)|intros _ z r r' []].
    - subst js. cbn [map] in *.
      destruct IH as (ts & T1 & T2 & T3 & T4);
        [intros j Hj; apply H1; right; exact Hj|intros j Hj; apply H3; right; exact Hj|].
      set (js := map cell_ij ijs) in *. set (job := cell_ij ij) in *.
      destruct (in_dec (fun a b : nat * nat => ltac:(decide equality; apply Nat.eq_dec)) ij ijs) as [HIn|HNot].
      { assert (HJ : In job js) by (unfold js, job; apply (in_map cell_ij), HIn).
        exists ts. cbn [List.concat]. split; [|split; [|split]].
        - intro r. rewrite in_app_iff, T1. split; [|auto]. intros [H|H]; [|exact H]. apply T1.
          apply in_concat. exists (fst (out_of job)). split; [|exact H].
          apply (in_map (fun job => fst (out_of job))), HJ.
        - intros z c k H. destruct (T2 z c k H) as (X1 & (j & Hj & X2) & X3). split; [exact X1|]. split; [|exact X3].
          exists j. split; [right; exact Hj|exact X2].
        - intros z Hz (j & [<-|Hj] & Hw); apply T3; [exact Hz|exists job; auto|exact Hz|exists j; auto].
        - exact T4. }
      assert (HJ : In job jobs).
      { unfold job. apply cell_in_jobs; [exact Hn|apply H1; left; reflexivity|apply H1; left; reflexivity]. }
      destruct (job_spots job HJ) as [C|(_ & tj & [J1 J2 J3 J4])].
      { rewrite (H3 job (or_introl eq_refl)) in C. discriminate. }
      assert (D : forall z j, In j js -> In z zeros -> zin (rect_of job) z -> zin (rect_of j) z -> False).
      { intros z j Hj Hz Z1 Z2. unfold js in Hj. apply in_map_iff in Hj. destruct Hj as (ij' & <- & Hj).
        destruct (H1 ij (or_introl eq_refl)) as [Ha Hb]. destruct (H1 ij' (or_intror Hj)) as [Ha' Hb'].
        pose proof (HA job HJ z Hz Z1) as S1.
        pose proof (HA _ (cell_in_jobs n x Hn _ _ Ha' Hb') z Hz Z2) as S2.
        destruct (same_job n f df dflt reRan imRan prec Hn _ _ _ _ _ Ha Hb Ha' Hb' S1 S2) as [E1 E2].
        apply HNot. destruct ij, ij'. cbn [fst snd] in E1, E2. subst. exact Hj. }
      exists (tj ++ ts). cbn [map List.concat]. split; [|split; [|split]].
      + intro r. rewrite in_app_iff, J1, T1. split.
        * intros [(z & H)|(z & H)]; exists z; apply in_or_app; auto.
        * intros (z & H). apply in_app_or in H. destruct H as [H|H]; [left|right]; exists z; exact H.
      + intros z c k H. apply in_app_or in H. destruct H as [H|H].
        * destruct (J2 z c k H) as (X1 & X2 & X3). split; [exact X1|]. split; [|exact X3].
          exists job. split; [left; reflexivity|exact X2].
        * destruct (T2 z c k H) as (X1 & (j & Hj & X2) & X3). split; [exact X1|]. split; [|exact X3].
          exists j. split; [right; exact Hj|exact X2].
      + intros z Hz (j & [<-|Hj] & Hw).
        * destruct (J3 z Hz Hw) as (r & Hr). exists r. apply in_or_app. auto.
        * destruct (T3 z Hz) as (r & Hr); [exists j; auto|]. exists r. apply in_or_app. auto.
      + intros HO z [c k] [c' k'] H H'. apply in_app_or in H, H'. destruct H as [H|H], H' as [H'|H'].
        * exact (J4 HO z _ _ H H').
        * exfalso. destruct (J2 _ _ _ H) as (X1 & X2 & _). destruct (T2 _ _ _ H') as (Y1 & (j & Hj & Y2) & _).
          exact (D z j Hj X1 X2 Y2).
        * exfalso. destruct (J2 _ _ _ H') as (X1 & X2 & _). destruct (T2 _ _ _ H) as (Y1 & (j & Hj & Y2) & _).
          exact (D z j Hj X1 X2 Y2).
        * exact (T4 HO z _ _ H H').
  Qed.

  Lemma parallel_union q : (forall o, In o outs -> snd o = None) -> Permutation (List.concat (map fst outs)) q ->
    exists ts, spotted t zeros P (rect_of x) (sep) once q ts.
  Proof.
    intros HN HP. destruct jobs_indices as (ijs & Ej & HIJ).
    destruct (union_spots ijs) as (ts & T1 & T2 & T3 & T4).
    - intros ij H. apply HIJ, H.
    - intros job H. apply HN. unfold outs. apply in_map. rewrite Ej. exact H.
    - rewrite <- Ej in T1, T2, T3. exists ts. split.
      + intro r. rewrite <- T1. rewrite <- (map_map out_of fst). fold outs.
        split; intro H; (eapply Permutation_in; [|exact H]); [symmetry|]; exact HP.
      + intros z c k H. destruct (T2 z c k H) as (X1 & (j & Hj & X2) & X3). split; [exact X1|]. split; [|exact X3].
        exact (sub_zin _ _ _ (proj1 (job_inside 1 n f df dflt reRan imRan prec 0 0 Hn (Nat.lt_0_succ 0) j Hj)) X2).
      + intros z Hz [Zx Zy]. apply (T3 z Hz).
        destruct (linspace_locate_R _ _ n _ Hn Zx) as (i & Hi & I1).
        destruct (linspace_locate_R _ _ n _ Hn Zy) as (j & Hj & J1).
        exists (cell n x i j). split; [exact (cell_in_jobs n x Hn i j Hi Hj)|]. exact (conj I1 J1).
      + exact T4.
  Qed.

  Lemma parallel_spots e info : pool_behaviour outs e ->
    let out := parallel_calculateRoots f dflt reRan imRan prec info e (rc_init p sp) in
    (forall x', e = PoolRaised x' -> snd out = Err RecursionError /\
       exists job, In job jobs /\ snd (out_of job) = Some RecursionError) /\
    (forall q, e = PoolDone q ->
       snd out = Ok tt /\
       let pairs := reported_pairs iter (fst out) in
       all_found u P' zeros reRan imRan pairs /\
       all_genuine u P' P zeros reRan imRan pairs /\
       (sep -> orders_right u P' P zeros reRan imRan pairs) /\
       (once -> sep -> separated (2 * u) P' zeros -> exactly_once u P' zeros reRan imRan pairs)).
  Proof.
    intros HB out. split.
    - intros x' ->. destruct HB as (o & Ho & Hx). unfold outs in Ho. apply in_map_iff in Ho.
      destruct Ho as (job & <- & Hj). destruct (job_spots job Hj) as [C|[C _]]; rewrite C in Hx; [|discriminate].
      injection Hx as <-. split; [reflexivity|]. exists job. auto.
    - intros q ->. destruct HB as [H1 H2]. apply interleaving_perm in H2.
      destruct (parallel_union q H1 H2) as [ts Hts].
      pose proof (fun pr => proj2 (drain_fresh f dflt reRan imRan prec p sp iter HI info q pr)) as Hpr. cbn zeta in Hpr.
      split; [exact (proj1 (drain_fresh f dflt reRan imRan prec p sp iter HI info q ((0, 0)%Q, 0)))|]. intro pairs.
      assert (Hreq : forall z, requested reRan imRan z -> zin (rect_of x) z) by (intro z; apply rect_requested).
      assert (Halm : forall z, zin (rect_of x) z -> almost_requested P reRan imRan z) by (intro z; apply rect_almost).
      assert (HRo : rounds_within t P u P') by (rewrite Hu; apply rounds_coarser).
      assert (P1 : forall pr, In pr pairs -> exists r, In r q /\ pr = roundRoot r P') by (intros pr H; apply Hpr, H).
      assert (P2 : forall r, In r q -> In (roundRoot r P') pairs) by (intros r H; apply Hpr; exists r; auto).
      split; [exact (spot_found _ _ _ _ _ _ _ _ _ _ _ _ _ Hts HRo Hreq P2)|].
      split; [exact (spot_genuine _ _ _ _ _ _ _ _ _ _ _ _ _ Hts HRo Halm P1)|].
      split; [exact (spot_orders _ _ _ _ _ _ _ _ _ _ _ _ _ Hts HRo Halm P1)|].
      intros O S1 S2. exact (spot_once _ _ _ _ _ _ _ _ _ _ _ _ _ Hts HRo Hreq P1 O S1 S2 P2).
  Qed.

  (** An interrupted parallel search whose jobs do not fail. *)
  Lemma parallel_cut q info : (forall o, In o outs -> snd o = None) -> pool_behaviour outs (PoolInterrupted q) ->
    let out := parallel_calculateRoots f dflt reRan imRan prec info (PoolInterrupted q) (rc_init p sp) in
    snd out = Ok tt /\
    let pairs := reported_pairs iter (fst out) in
    all_genuine u P' P zeros reRan imRan pairs /\
    (sep -> orders_right u P' P zeros reRan imRan pairs).
  Proof.
    intros HN HB out. destruct HB as (outs' & HF & HB). apply interleaving_perm in HB.
    assert (Hsub : forall r, In r q -> In r (List.concat (map fst outs))).
    { intros r Hr. eapply Permutation_in in Hr; [|symmetry; exact HB].
      apply in_concat in Hr. destruct Hr as (l & H1 & H2).
      destruct (Forall2_prefix_in _ _ _ _ HF H1 H2) as (l2 & H3 & H4).
      apply in_concat. exists l2. auto. }
    destruct (parallel_union _ HN (Permutation_refl _)) as [ts Hts].
    pose proof (fun pr => proj2 (drain_fresh f dflt reRan imRan prec p sp iter HI info q pr)) as Hpr. cbn zeta in Hpr.
    split; [exact (proj1 (drain_fresh f dflt reRan imRan prec p sp iter HI info q ((0, 0)%Q, 0)))|]. intro pairs.
    assert (Halm : forall z, zin (rect_of x) z -> almost_requested P reRan imRan z) by (intro z; apply rect_almost).
    assert (HRo : rounds_within t P u P') by (rewrite Hu; apply rounds_coarser).
    assert (P1 : forall pr, In pr pairs -> exists r, In r (List.concat (map fst outs)) /\ pr = roundRoot r P').
    { intros pr H. apply Hpr in H. destruct H as (r & H3 & H4). exists r. auto. }
    split; [exact (spot_genuine _ _ _ _ _ _ _ _ _ _ _ _ _ Hts HRo Halm P1)|].
    exact (spot_orders _ _ _ _ _ _ _ _ _ _ _ _ _ Hts HRo Halm P1).
  Qed.
End Parallel.
