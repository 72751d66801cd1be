(** Searches of the Newton-assisted algorithm. *)
From Coq Require Import Permutation Reals Qreals Qminmax.
From Verif Require Import PyBase Rounding_Model Rounding_Proofs Container_Model Container_Spec
  Container_Proofs Finder_Model Finder_Spec Finder_Proofs Poly_Model Refine_Model Refine_Spec
  Refine_Proofs Refine_Proofs2 Zeros_Spec Zeros_Proofs Refine_Proofs3 EndToEnd_Model EndToEnd_Spec
  EndToEnd_Proofs EndToEnd_Proofs2 EndToEnd_Proofs3 Assist_Spec Assist_Proofs Assist_Proofs2.
Open Scope Z_scope.

Lemma newton_both {S} (E : env S) zeros depth s x : proper (rect_of x) ->
  reliable E zeros (cx_precision x) (rect_of x) ->
  converging (e_secant E) (e_newton E) (cx_df x) zeros (cx_precision x) (rect_of x) ->
  run_spots E NewtonV (1 / 2) zeros (separated 1 (cx_precision x) zeros) (cx_df x = None) depth s x /\
  forall a b,
  (x2 (rect_of x) - x1 (rect_of x) < inject_Z (2 ^ Z.of_nat a) * pow10 (- fst (cx_precision x)))%Q ->
  (y2 (rect_of x) - y1 (rect_of x) < inject_Z (2 ^ Z.of_nat b) * pow10 (- snd (cx_precision x)))%Q ->
  (a + b < depth)%nat ->
  forall info, ar_end (argument_algorithm E NewtonV depth info s x) = None.
Proof.
  intros Hp HR [HC1 HC2]. apply spots_both; [apply Rle_refl|exact (fun x => x)|exact Hp|exact HR|discriminate|].
  intros q phi l o Hq _ _ HZ Hphi [[_ HN]|[C _]]; [|discriminate].
  destruct (newton_step (env_for E x) zeros (rect_of x) q phi l o) as [Ho [ts Hts]]; try assumption.
  - cbn. intro Hd. apply HC2. intro C. rewrite C in Hd. discriminate.
  - split; [exact Ho|]. exists ts. refine (spotted_weaker _ _ _ _ _ _ _ _ _ _ (fun x => x) _ Hts).
    intro C. cbn. rewrite C. reflexivity.
Qed.

Lemma half_one : 1%R = (1 / 2 + 1 / 2)%R. Proof. field. Qed.
Lemma half_eleven : (11 / 20)%R = (1 / 2 / 10 + 1 / 2)%R. Proof. field. Qed.

Lemma sep_two P zeros : separated 2 P zeros -> separated 1 P zeros /\ separated (2 * 1) P zeros.
Proof.
  intro Hs. rewrite Rmult_1_r. split; [|exact Hs]. intros z1 z2 H1 H2 A B. apply Hs; [exact H1|exact H2| |];
    pose proof (Q2R_pow10_pos (- fst P)); pose proof (Q2R_pow10_pos (- snd P)); Lra.lra.
Qed.
Lemma sep_eleven P zeros : separated (11 / 10) P zeros ->
  separated 1 (fst P + 1, snd P + 1) zeros /\ separated (2 * (11 / 20)) P zeros.
Proof.
  intro Hs. split.
  - intros z1 z2 H1 H2 A B. cbn [fst snd] in A, B. rewrite ten_less in A, B. apply Hs; [exact H1|exact H2| |];
      pose proof (Q2R_pow10_pos (- fst P)); pose proof (Q2R_pow10_pos (- snd P)); Lra.lra.
  - replace (2 * (11 / 20))%R with (11 / 10)%R by field. exact Hs.
Qed.

Section NewtonSearch.
  Context {S : Type} (E : env S).
  Variables (zeros : list point) (depth : nat).
  Variables (f : holoFunc) (df : option holoFunc) (dflt : Z * Z) (reRan imRan : Q * Q) (prec : option (Z * Z)).
  Variables (p : option (Z * Z)) (sp : Z * Z) (iter : list root -> list root).
  Notation P := (search_precision dflt prec).
  Notation P' := (match prec with Some q => q | None => dflt end).
  Notation x := (serial_context f df dflt reRan imRan prec).
  Hypothesis HI : iteration_order iter.

  Lemma C75_serial_lemma info s :
    let out := calculateRoots f df dflt (argument_algorithm E NewtonV depth info s) reRan imRan prec (rc_init p sp) in
    reliable E zeros P (rect_of x) -> converging (e_secant E) (e_newton E) df zeros P (rect_of x) ->
    snd out = Err RecursionError \/
    (snd out = Ok tt /\
     let pairs := reported_pairs iter (fst out) in
     all_found 1 P zeros reRan imRan pairs /\
     all_genuine 1 P P zeros reRan imRan pairs /\
     (separated 1 P zeros -> orders_right 1 P P zeros reRan imRan pairs) /\
     (df = None -> separated 2 P zeros -> exactly_once 1 P zeros reRan imRan pairs)).
  Proof.
    intros out HR HC.
    destruct (newton_both E zeros depth s x (rect_proper f df dflt reRan imRan prec) HR HC) as [HS _].
    destruct (serial_spots E NewtonV (1 / 2) 1 zeros (separated 1 P zeros) (df = None) depth info s f df dflt reRan imRan prec p sp iter HI half_one HS)
      as [[H _]|(H & A & B & C & D)]; [left; exact H|right].
    split; [exact H|]. cbv zeta. split; [exact A|]. split; [exact B|]. split; [exact C|].
    intros Hdf Hs. destruct (sep_two _ _ Hs). auto.
  Qed.

  Lemma C75_complete_lemma info s a b :
    let out := calculateRoots f df dflt (argument_algorithm E NewtonV depth info s) reRan imRan prec (rc_init p sp) in
    reliable E zeros P (rect_of x) -> converging (e_secant E) (e_newton E) df zeros P (rect_of x) ->
    halvings (Qabs (fst reRan - snd reRan) + 3 * pow10 (- fst P)) (fst P) a ->
    halvings (Qabs (fst imRan - snd imRan) + 7 * pow10 (- snd P)) (snd P) b ->
    (a + b < depth)%nat ->
    snd out = Ok tt /\
    let pairs := reported_pairs iter (fst out) in
    all_found 1 P zeros reRan imRan pairs /\
    all_genuine 1 P P zeros reRan imRan pairs /\
    (separated 1 P zeros -> orders_right 1 P P zeros reRan imRan pairs) /\
    (df = None -> separated 2 P zeros -> exactly_once 1 P zeros reRan imRan pairs).
  Proof.
    intros out HR HC Ha Hb Hd.
    destruct (newton_both E zeros depth s x (rect_proper f df dflt reRan imRan prec) HR HC) as [HS HDp].
    pose proof (rect_halvings f df dflt reRan imRan prec a b Ha Hb) as [Ha' Hb'].
    destruct (serial_spots E NewtonV (1 / 2) 1 zeros (separated 1 P zeros) (df = None) depth info s f df dflt reRan imRan prec p sp iter HI half_one HS)
      as [[_ H]|(H & A & B & C & D)].
    - rewrite (HDp a b Ha' Hb' Hd info) in H. discriminate.
    - split; [exact H|]. cbv zeta. split; [exact A|]. split; [exact B|]. split; [exact C|].
      intros Hdf Hs. destruct (sep_two _ _ Hs). auto.
  Qed.

  Section Jobs.
    Variables (n : nat) (st : rctx -> S).
    Notation jobs := (createRootJobs n x).
    Notation outs := (map (fun job => worker_output E NewtonV depth (st job) job) jobs).
    Hypothesis Hn : (1 <= n)%nat.
    Hypothesis HR : forall job, In job jobs ->
      reliable E zeros P (rect_of job) /\ converging (e_secant E) (e_newton E) df zeros P (rect_of job).

    Lemma job_df job : In job jobs -> cx_df job = df.
    Proof. intro H. apply (jobs_in n x Hn) in H. destruct H as (i & j & _ & _ & ->). reflexivity. Qed.

    Lemma newton_job job : In job jobs ->
      run_spots E NewtonV (1 / 2) zeros (separated 1 P zeros) (df = None) depth (st job) job /\ avoids zeros (rect_of job) /\
      forall a b, halvings (Qabs (fst reRan - snd reRan) + 3 * pow10 (- fst P)) (fst P) a ->
        halvings (Qabs (fst imRan - snd imRan) + 7 * pow10 (- snd P)) (snd P) b ->
        (a + b < depth)%nat -> snd (worker_output E NewtonV depth (st job) job) = None.
    Proof.
      intro H. destruct (HR job H) as [HR1 HR2].
      destruct (job_inside 1 n f df dflt reRan imRan prec 0 0 Hn (Nat.lt_0_succ 0) job H) as ((S1 & S2 & S3 & S4) & Hp & HP).
      rewrite <- HP in HR1, HR2. rewrite <- (job_df job H) in HR2.
      destruct (newton_both E zeros depth (st job) job Hp HR1 HR2) as [X Y]. rewrite (job_df job H), HP in X.
      split; [exact X|]. split; [exact (proj1 (HR1 (rect_of job) (st job) (cell_whole _ _)))|].
      intros a b Ha Hb Hd.
      pose proof (rect_halvings f df dflt reRan imRan prec a b Ha Hb) as [Ha' Hb'].
      apply (Y a b); [| |exact Hd]; rewrite HP; (eapply Qle_lt_trans; [|eassumption]); Lqa.lra.
    Qed.

    Lemma C75_parallel_lemma e info : pool_behaviour outs e ->
      let out := parallel_calculateRoots f dflt reRan imRan prec info e (rc_init p sp) in
      (forall x', e = PoolRaised x' -> snd out = Err RecursionError) /\
      (forall q, e = PoolDone q ->
         snd out = Ok tt /\
         let pairs := reported_pairs iter (fst out) in
         all_found (11 / 20) P' zeros reRan imRan pairs /\
         all_genuine (11 / 20) P' P zeros reRan imRan pairs /\
         (separated 1 P zeros -> orders_right (11 / 20) P' P zeros reRan imRan pairs) /\
         (df = None -> separated (11 / 10) P' zeros -> exactly_once (11 / 20) P' zeros reRan imRan pairs)).
    Proof.
      intros HB out.
      destruct (parallel_spots E NewtonV (1 / 2) (11 / 20) zeros (separated 1 P zeros) (df = None) depth n st f df dflt reRan imRan prec p sp iter
        Hn HI half_eleven (fun job H => proj1 (proj2 (newton_job job H))) (fun job H => proj1 (newton_job job H)) e info HB) as [A B].
      split; [intros x' H; exact (proj1 (A x' H))|].
      intros q Hq. destruct (B q Hq) as (B1 & B2 & B3 & B4 & B5).
      split; [exact B1|]. cbv zeta. split; [exact B2|]. split; [exact B3|]. split; [exact B4|].
      intros Hdf Hs. destruct (sep_eleven _ _ Hs). auto.
    Qed.

    Lemma C75_parallel_complete_lemma a b e info :
      halvings (Qabs (fst reRan - snd reRan) + 3 * pow10 (- fst P)) (fst P) a ->
      halvings (Qabs (fst imRan - snd imRan) + 7 * pow10 (- snd P)) (snd P) b ->
      (a + b < depth)%nat -> pool_behaviour outs e ->
      (forall x', e <> PoolRaised x') /\
      let out := parallel_calculateRoots f dflt reRan imRan prec info e (rc_init p sp) in
      snd out = Ok tt /\
      let pairs := reported_pairs iter (fst out) in
      all_genuine (11 / 20) P' P zeros reRan imRan pairs /\
      (separated 1 P zeros -> orders_right (11 / 20) P' P zeros reRan imRan pairs) /\
      (forall q, e = PoolDone q ->
         all_found (11 / 20) P' zeros reRan imRan pairs /\
         (df = None -> separated (11 / 10) P' zeros -> exactly_once (11 / 20) P' zeros reRan imRan pairs)).
    Proof.
      intros Ha Hb Hd HB.
      assert (HN : forall o, In o outs -> snd o = None).
      { intros o Ho. apply in_map_iff in Ho. destruct Ho as (job & <- & Hj).
        exact (proj2 (proj2 (newton_job job Hj)) a b Ha Hb Hd). }
      destruct (C75_parallel_lemma e info HB) as [A B]. destruct e as [q|q|x'].
      - split; [intros x' C; discriminate|]. intro out. destruct (B q eq_refl) as (B1 & B2 & B3 & B4 & B5).
        split; [exact B1|]. cbv zeta. split; [exact B3|]. split; [exact B4|]. intros q' _. auto.
      - split; [intros x' C; discriminate|]. intro out.
        destruct (parallel_cut E NewtonV (1 / 2) (11 / 20) zeros (separated 1 P zeros) (df = None) depth n st f df dflt reRan imRan prec p sp iter
          Hn HI half_eleven (fun job H => proj1 (proj2 (newton_job job H))) (fun job H => proj1 (newton_job job H)) q info HN HB)
          as (B1 & B2 & B3).
        split; [exact B1|]. cbv zeta. split; [exact B2|]. split; [exact B3|]. intros q' C. discriminate.
      - exfalso. destruct HB as (o & Ho & Hx). rewrite (HN o Ho) in Hx. discriminate.
    Qed.
  End Jobs.
End NewtonSearch.
