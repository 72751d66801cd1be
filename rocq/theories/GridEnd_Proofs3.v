From Coq Require Import Reals Qreals Qminmax Permutation Lqa Lra.
From Verif Require Import PyBase Rounding_Model Rounding_Spec Rounding_Proofs Container_Model Container_Spec
  Container_Proofs Finder_Model Finder_Spec Finder_Proofs Refine_Model Refine_Spec Refine_Proofs2 Zeros_Spec
  Grid_Model Grid_Spec Grid_Proofs EndToEnd_Model EndToEnd_Spec EndToEnd_Proofs GridEnd_Model GridEnd_Spec
  GridEnd_Proofs GridEnd_Proofs2.
Open Scope R_scope.

Section SerialFound.
  Variables (newton : holoFunc -> option holoFunc -> list cplx -> res (list cplx)) (m : nat).
  Variables (progress : bool) (task : option Z) (info : root -> bool).
  Variables (f : holoFunc) (df : option holoFunc) (dflt : Z * Z) (reRan imRan : Q * Q) (prec : option (Z * Z)).
  Variables (p : option (Z * Z)) (sp : Z * Z) (h : list rc_op) (iter : list root -> list root).
  Hypothesis HI : iteration_order iter.
  Variables (ex ey : R).

  Let P := one_more (decimals dflt prec).
  Let c := rc_run h (rc_init p sp).
  Let out := calculateRoots f df dflt (grid_algorithm newton m progress task info) reRan imRan prec c.
  Let hx := domain_width reRan P / (2 * INR (m - 1)).
  Let hy := domain_height imRan P / (2 * INR (m - 1)).

  Lemma serial_found z : (2 <= m)%nat ->
    (forall w re' im', filters_total h (w, 0%Z) (mkFctx f re' im' P 3)) ->
    requested reRan imRan z ->
    attracts newton f df hx hy ex ey z ->
    (forall w re' im', enlarged reRan imRan P re' im' -> off ex ey w z -> accepted h (w, 0%Z) (mkFctx f re' im' P 3)) ->
    snd out = Ok tt /\
    exists v, In (v, 0%Z) (reported_pairs iter (fst out)) /\
      off (ex + half_unit (fst P)) (ey + half_unit (snd P)) v z.
  Proof.
    intros Hm FT RQ AT AC.
    destruct (serial_grid newton m progress task info f df dflt reRan imRan prec p sp h iter HI)
      as (re' & im' & starts & EN & SG & _ & OK). fold P in EN, OK. fold c in OK. fold out in OK.
    destruct (enlarged_R _ _ _ _ _ EN) as (W & H & IN). destruct (IN z RQ) as [Z1 Z2].
    destruct (grid_near m re' im' starts z Hm SG Z1 Z2) as (k & s & K & O).
    rewrite W, H in O. destruct (AT starts k s K O) as (ends & e & N & E & OE).
    destruct (OK ends N) as [S1 S2]; [intros; apply FT|]. split; [exact S1|].
    destruct (rounded_ex P (e, 0%Z)) as [pr RD]. destruct (rounded_off P ex ey e z pr RD OE) as [B1 B2].
    exists (fst pr). split; [|exact B2]. rewrite <- B1. rewrite <- surjective_pairing. apply S2. left.
    exists e. split; [eapply nth_error_In, E|]. split; [apply (AC e re' im' EN OE)|exact RD].
  Qed.

  Variable zeros : list point.

  Lemma serial_genuine :
    (forall w re' im', filters_total h (w, 0%Z) (mkFctx f re' im' P 3)) ->
    reported_pairs iter c = [] ->
    (forall starts ends w re' im', newton f df starts = Ok ends -> In w ends -> enlarged reRan imRan P re' im' ->
       accepted h (w, 0%Z) (mkFctx f re' im' P 3) -> exists z, In z zeros /\ off ex ey w z) ->
    forall v k, In (v, k) (reported_pairs iter (fst out)) ->
      k = 0%Z /\ exists z, In z zeros /\ off (ex + half_unit (fst P)) (ey + half_unit (snd P)) v z.
  Proof.
    intros FT EM GN v k IN.
    destruct (serial_grid newton m progress task info f df dflt reRan imRan prec p sp h iter HI)
      as (re' & im' & starts & EN & SG & ER & OK). fold P in EN, OK. fold c in ER, OK. fold out in ER, OK.
    destruct (newton f df starts) as [ends|e] eqn:N.
    - destruct (OK ends eq_refl) as [_ S2]; [intros; apply FT|]. apply S2 in IN.
      destruct IN as [(w & W1 & W2 & W3)|[IN _]]; [|rewrite EM in IN; destruct IN].
      destruct (GN starts ends w re' im' N W1 EN W2) as (z & Z1 & Z2).
      destruct (rounded_off P ex ey w z _ W3 Z2) as [B1 B2]. split; [exact B1|]. exists z. auto.
    - destruct (ER e eq_refl) as [E _]. rewrite E, EM in IN. destruct IN.
  Qed.

  Lemma serial_once z : (2 <= m)%nat ->
    (forall w re' im', filters_total h (w, 0%Z) (mkFctx f re' im' P 3)) ->
    reported_pairs iter c = [] ->
    (forall starts ends w re' im', newton f df starts = Ok ends -> In w ends -> enlarged reRan imRan P re' im' ->
       accepted h (w, 0%Z) (mkFctx f re' im' P 3) -> exists z, In z zeros /\ off ex ey w z) ->
    In z zeros -> requested reRan imRan z ->
    attracts newton f df hx hy ex ey z ->
    (forall w re' im', enlarged reRan imRan P re' im' -> off ex ey w z -> accepted h (w, 0%Z) (mkFctx f re' im' P 3)) ->
    apart (2 * (ex + half_unit (fst P))) (2 * (ey + half_unit (snd P))) zeros ->
    clear_of_ties (fst P) ex (fst z) -> clear_of_ties (snd P) ey (snd z) ->
    exists v, In (v, 0%Z) (reported_pairs iter (fst out)) /\
      off (ex + half_unit (fst P)) (ey + half_unit (snd P)) v z /\
      forall v' k, In (v', k) (reported_pairs iter (fst out)) ->
        off (ex + half_unit (fst P)) (ey + half_unit (snd P)) v' z -> (v', k) = (v, 0%Z).
  Proof.
    intros Hm FT EM GN IZ RQ AT AC AP C1 C2.
    destruct (serial_grid newton m progress task info f df dflt reRan imRan prec p sp h iter HI)
      as (re' & im' & starts & EN & SG & _ & OK). fold P in EN, OK. fold c in OK. fold out in OK.
    destruct (enlarged_R _ _ _ _ _ EN) as (W & H & IN). destruct (IN z RQ) as [Z1 Z2].
    destruct (grid_near m re' im' starts z Hm SG Z1 Z2) as (k & s & K & O).
    rewrite W, H in O. destruct (AT starts k s K O) as (ends & e & N & E & OE).
    destruct (OK ends N) as [S1 S2]; [intros; apply FT|].
    destruct (rounded_ex P (e, 0%Z)) as [pr RD]. destruct (rounded_off P ex ey e z pr RD OE) as [B1 B2].
    exists (fst pr). split.
    { rewrite <- B1. rewrite <- surjective_pairing. apply S2. left.
      exists e. split; [eapply nth_error_In, E|]. split; [apply (AC e re' im' EN OE)|exact RD]. }
    split; [exact B2|]. intros v' k' IN' O'. apply S2 in IN'.
    destruct IN' as [(w & W1 & W2 & W3)|[IN' _]]; [|rewrite EM in IN'; destruct IN'].
    destruct (GN starts ends w re' im' N W1 EN W2) as (z' & Y1 & Y2).
    destruct (rounded_off P ex ey w z' _ W3 Y2) as [D1 D2]. cbn [fst snd] in D1, D2.
    assert (z' = z).
    { apply AP; try assumption; destruct O' as [O1 O2], D2 as [D2 D3].
      - replace (fst z' - fst z) with ((fst z' - Q2R (re v')) - (fst z - Q2R (re v'))) by ring.
        eapply Rle_trans; [apply Rabs_triang|]. rewrite Rabs_Ropp. Lra.lra.
      - replace (snd z' - snd z) with ((snd z' - Q2R (im v')) - (snd z - Q2R (im v'))) by ring.
        eapply Rle_trans; [apply Rabs_triang|]. rewrite Rabs_Ropp. Lra.lra. }
    subst z'. destruct W3 as (R1 & R2 & R3). destruct RD as (T1 & T2 & T3). cbn [fst snd] in *.
    assert (Q1 : re v' = re (fst pr)).
    { apply (same_rounding (fst P) ex (fst z) (re w) (re e)); try assumption; [apply Y2|apply OE]. }
    assert (Q2' : im v' = im (fst pr)).
    { apply (same_rounding (snd P) ey (snd z) (im w) (im e)); try assumption; [apply Y2|apply OE]. }
    destruct v' as [a b]. destruct (fst pr) as [a' b']. unfold re, im in *. cbn [fst snd] in *. congruence.
  Qed.
End SerialFound.

(** ** The parallel finder *)
Section Parallel.
  Variables (newton : holoFunc -> option holoFunc -> list cplx -> res (list cplx)) (m n : nat).
  Variables (progress : bool) (task : option Z) (inf : bool).
  Variables (f : holoFunc) (df : option holoFunc) (dflt : Z * Z) (reRan imRan : Q * Q) (prec : option (Z * Z)).
  Variables (p : option (Z * Z)) (sp : Z * Z) (h : list rc_op) (iter : list root -> list root).
  Hypothesis HI : iteration_order iter.

  Let P := decimals dflt prec.
  Let c := rc_run h (rc_init p sp).
  Let x := serial_context f df dflt reRan imRan prec.
  Let outs := map (grid_worker newton m progress task) (createRootJobs n x).
  Let out pool := parallel_calculateRoots f dflt reRan imRan prec inf pool c.

  Lemma worker_ok y ends :
    newton (cx_f y) (cx_df y) (grid_points m (rect_of y)) = Ok ends ->
    grid_worker newton m progress task y = (map (fun z => (z, 0%Z)) ends, None).
  Proof.
    intro H. unfold grid_worker. rewrite (grid_run_ok _ _ _ _ _ _ _ H). cbn [ar_reports ar_end].
    rewrite map_map. reflexivity.
  Qed.

  Lemma worker_err y e :
    newton (cx_f y) (cx_df y) (grid_points m (rect_of y)) = Err e ->
    grid_worker newton m progress task y = ([], if catches_RuntimeError e then None else Some e).
  Proof. intro H. unfold grid_worker. rewrite (grid_run_err _ _ _ _ _ _ _ H). reflexivity. Qed.

  Lemma parallel_grid : (1 <= n)%nat ->
    exists re' im' starts, enlarged reRan imRan (one_more P) re' im' /\
      (forall i j, (i < n)%nat -> (j < n)%nat -> start_grid m (part n re' i) (part n im' j) (starts i j)) /\
      let ctx := mkFctx f re' im' P 3 in
      (forall e, pool_behaviour outs (PoolRaised e) ->
         out (PoolRaised e) = (c, Err e) /\
         exists i j, (i < n)%nat /\ (j < n)%nat /\ newton f df (starts i j) = Err e /\ ~ is_RuntimeError e) /\
      (forall ends q,
         (forall i j, (i < n)%nat -> (j < n)%nat -> newton f df (starts i j) = Ok (ends i j) \/
            exists e, newton f df (starts i j) = Err e /\ ends i j = []) ->
         (forall i j z, (i < n)%nat -> (j < n)%nat -> In z (ends i j) -> filters_total h (z, 0%Z) ctx) ->
         pool_behaviour outs (PoolDone q) ->
         snd (out (PoolDone q)) = Ok tt /\
         forall pr, In pr (reported_pairs iter (fst (out (PoolDone q)))) <->
           (exists i j z, (i < n)%nat /\ (j < n)%nat /\ In z (ends i j) /\
              accepted h (z, 0%Z) ctx /\ rounded P (z, 0%Z) pr) \/
           (In pr (reported_pairs iter c) /\
             (P = rc_precision c \/
              forall i j z, (i < n)%nat -> (j < n)%nat -> In z (ends i j) -> ~ accepted h (z, 0%Z) ctx))).
  Proof.
    intro Hn.
    exists (cx_reRan x), (cx_imRan x), (fun i j => grid_points m (rect_of (cell n x i j))).
    split; [apply (domain_enlarged f df dflt reRan imRan prec)|]. split.
    { intros i j _ _. exact (start_grid_points m (cell n x i j)). }
    assert (CX : drain_context f dflt reRan imRan prec = mkFctx f (cx_reRan x) (cx_imRan x) P 3).
    { unfold drain_context. f_equal. exact (drain_prec f dflt reRan imRan prec). }
    cbn zeta. split.
    - intros e (o & O1 & O2). split; [reflexivity|]. apply in_map_iff in O1. destruct O1 as (y & <- & Y).
      apply (jobs_in n x Hn) in Y. destruct Y as (i & j & Hi & Hj & ->). exists i, j. split; [exact Hi|]. split; [exact Hj|].
      change (newton f df) with (newton (cx_f (cell n x i j)) (cx_df (cell n x i j))).
      destruct (newton (cx_f (cell n x i j)) (cx_df (cell n x i j)) (grid_points m (rect_of (cell n x i j)))) as [l|e'] eqn:N.
      + rewrite (worker_ok _ _ N) in O2. discriminate O2.
      + rewrite (worker_err _ _ N) in O2. cbn [snd] in O2. destruct (catches_RuntimeError e') eqn:E; [discriminate O2|].
        assert (X : e' = e) by congruence. subst e'. split; [reflexivity|].
        intros [X|[X|X]]; rewrite X in E; discriminate E.
    - intros ends q EN FT PB. rewrite <- CX in *.
      assert (WK : forall i j, (i < n)%nat -> (j < n)%nat ->
                fst (grid_worker newton m progress task (cell n x i j)) = map (fun z => (z, 0%Z)) (ends i j)).
      { intros i j Hi Hj. destruct (EN i j Hi Hj) as [N|(e & N & E)].
        - rewrite (worker_ok (cell n x i j) (ends i j)); [reflexivity|exact N].
        - rewrite (worker_err (cell n x i j) e); [rewrite E; reflexivity|exact N]. }
      assert (OI : forall r, (exists o, In o outs /\ In r (fst o)) <->
                exists i j z, (i < n)%nat /\ (j < n)%nat /\ In z (ends i j) /\ r = (z, 0%Z)).
      { intro r. split.
        - intros (o & O1 & O2). apply in_map_iff in O1. destruct O1 as (y & <- & Y). apply (jobs_in n x Hn) in Y.
          destruct Y as (i & j & Hi & Hj & ->). rewrite (WK i j Hi Hj) in O2. apply in_map_iff in O2.
          destruct O2 as (z & <- & Z). exists i, j, z. auto.
        - intros (i & j & z & Hi & Hj & Z & ->). exists (grid_worker newton m progress task (cell n x i j)).
          split; [apply in_map, (cell_in_jobs n x Hn); assumption|]. rewrite (WK i j Hi Hj). apply in_map_iff. exists z. auto. }
      destruct (C16_spec f dflt reRan imRan prec p sp h iter HI outs q inf PB) as [S1 S2].
      { intros o r O1 O2. destruct (proj1 (OI r)) as (i & j & z & Hi & Hj & Z & ->); [eauto|]. exact (FT i j z Hi Hj Z). }
      split; [exact S1|]. intro pr. unfold out. etransitivity; [apply S2|]. fold P c. split.
      + intros [(o & r & O1 & O2 & A & R)|[A [B|B]]].
        * destruct (proj1 (OI r)) as (i & j & z & Hi & Hj & Z & ->); [eauto|]. left. exists i, j, z. auto.
        * right. auto.
        * right. split; [exact A|]. right. intros i j z Hi Hj Z.
          destruct (proj2 (OI (z, 0%Z))) as (o & O1 & O2); [exists i, j, z; auto|]. eapply B; eauto.
      + intros [(i & j & z & Hi & Hj & Z & A & R)|[A [B|B]]].
        * destruct (proj2 (OI (z, 0%Z))) as (o & O1 & O2); [exists i, j, z; auto|]. left. exists o, (z, 0%Z). auto.
        * right. auto.
        * right. split; [exact A|]. right. intros o r O1 O2.
          destruct (proj1 (OI r)) as (i & j & z & Hi & Hj & Z & ->); [eauto|]. exact (B i j z Hi Hj Z).
  Qed.

  Lemma locate_R A B (k : nat) z : (1 <= k)%nat -> A <= z <= B ->
    exists i, (i < k)%nat /\ A + INR i * ((B - A) / INR k) <= z <= A + INR (i + 1) * ((B - A) / INR k).
  Proof.
    clear. intros Hk Hz. assert (HN : 0 < INR k) by (apply lt_0_INR; lia).
    set (s := (B - A) / INR k). assert (E : INR k * s = B - A) by (unfold s; field; Lra.lra).
    assert (G : forall l, (1 <= l <= k)%nat -> z <= A + INR l * s ->
      exists i, (i < k)%nat /\ A + INR i * s <= z <= A + INR (i + 1) * s).
    { induction l as [|l IH]; intros Hl H; [lia|]. destruct (Rle_dec z (A + INR l * s)) as [C|C].
      - destruct l as [|l]; [exists 0%nat; cbn [INR Nat.add] in *; split; [lia|Lra.lra]|]. apply IH; [lia|exact C].
      - exists l. split; [lia|]. rewrite Nat.add_1_r. Lra.lra. }
    apply (G k); [lia|]. Lra.lra.
  Qed.

  Variables (ex ey : R).
  Let hx := domain_width reRan (one_more P) / (2 * INR n * INR (m - 1)).
  Let hy := domain_height imRan (one_more P) / (2 * INR n * INR (m - 1)).

  Lemma parallel_found z q : (1 <= n)%nat -> (2 <= m)%nat ->
    (forall w re' im', filters_total h (w, 0%Z) (mkFctx f re' im' P 3)) ->
    requested reRan imRan z ->
    attracts newton f df hx hy ex ey z ->
    (forall w re' im', enlarged reRan imRan (one_more P) re' im' -> off ex ey w z ->
       accepted h (w, 0%Z) (mkFctx f re' im' P 3)) ->
    pool_behaviour outs (PoolDone q) ->
    exists v, In (v, 0%Z) (reported_pairs iter (fst (out (PoolDone q)))) /\
      off (ex + half_unit (fst P)) (ey + half_unit (snd P)) v z.
  Proof.
    intros Hn Hm FT RQ AT AC PB.
    destruct (parallel_grid Hn) as (re' & im' & starts & EN & SG & _ & OK).
    destruct (enlarged_R _ _ _ _ _ EN) as (W & H & IN). destruct (IN z RQ) as [Z1 Z2].
    destruct (locate_R _ _ n _ Hn Z1) as (i & Hi & I1). destruct (locate_R _ _ n _ Hn Z2) as (j & Hj & J1).
    assert (HN : 0 < INR n) by (apply lt_0_INR; lia).
    assert (HM : 0 < INR (m - 1)) by (apply lt_0_INR; lia).
    destruct (grid_near m (part n re' i) (part n im' j) (starts i j) z Hm (SG i j Hi Hj)) as (k & s & K & O).
    { unfold part. cbn [fst snd]. rewrite !Q2R_grid by exact Hn. exact I1. }
    { unfold part. cbn [fst snd]. rewrite !Q2R_grid by exact Hn. exact J1. }
    assert (O' : off hx hy s z).
    { revert O. unfold part. cbn [fst snd]. rewrite !Q2R_grid by exact Hn. rewrite W, H.
      unfold hx, hy, off. rewrite !plus_INR. cbn [INR].
      intros [A B]. split.
      - eapply Rle_trans; [exact A|]. right. field. split; Lra.lra.
      - eapply Rle_trans; [exact B|]. right. field. split; Lra.lra. }
    destruct (AT (starts i j) k s K O') as (e0 & e & N & E & OE).
    set (ends := fun i j => match newton f df (starts i j) with Ok l => l | Err _ => [] end).
    destruct (OK ends q) as [S1 S2].
    { intros i' j' _ _. unfold ends. destruct (newton f df (starts i' j')) as [l|e']; [left; reflexivity|right; eauto]. }
    { intros. apply FT. }
    { exact PB. }
    destruct (rounded_ex P (e, 0%Z)) as [pr RD]. destruct (rounded_off P ex ey e z pr RD OE) as [B1 B2].
    exists (fst pr). split; [|exact B2]. rewrite <- B1. rewrite <- surjective_pairing. apply S2. left.
    exists i, j, e. split; [exact Hi|]. split; [exact Hj|]. split; [unfold ends; rewrite N; eapply nth_error_In, E|].
    split; [apply (AC e re' im' EN OE)|exact RD].
  Qed.
End Parallel.

(** ** How dense the parallel grid is *)
Lemma parallel_density n cpu : (2 <= n)%Z -> (0 < cpu)%Z ->
  exists s, parallel_numSamplePoints (Some n) cpu = Some s /\ newton_grid_points (Some s) = s /\
    (n - 1 <= cpu * (s - 1) <-> n mod cpu <= 1)%Z.
Proof.
  intros Hn Hc. unfold parallel_numSamplePoints. destruct (Z.eqb_spec n 0) as [E|_]; [lia|].
  exists (Z.quot n cpu + 1)%Z. split; [reflexivity|]. rewrite Z.quot_div_nonneg by lia.
  assert (0 <= n / cpu)%Z by (apply Z.div_pos; lia). split.
  - unfold newton_grid_points. destruct (Z.eqb_spec (n / cpu + 1) 0); [lia|reflexivity].
  - pose proof (Z.div_mod n cpu ltac:(lia)). rewrite Z.add_simpl_r. lia.
Qed.
