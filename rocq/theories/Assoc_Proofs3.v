(** Searches of the associated-polynomial algorithm. *)
From Coq Require Import Permutation Reals Qreals Qminmax.
From Verif Require Import PyBase Rounding_Model Rounding_Proofs Container_Model Container_Spec
  Container_Proofs Finder_Model Finder_Spec Finder_Proofs Poly_Model Refine_Model Refine_Spec
  Refine_Proofs Refine_Proofs2 Zeros_Spec Zeros_Proofs Refine_Proofs3 EndToEnd_Model EndToEnd_Spec
  EndToEnd_Proofs EndToEnd_Proofs2 EndToEnd_Proofs3 Assist_Proofs Assist_Proofs2 Assist_Proofs3
  Assoc_Spec Assoc_Proofs2.
Open Scope Z_scope.

Lemma three_two : 2%R = (3 / 2 + 1 / 2)%R. Proof. field. Qed.
Lemma three_thirteen : (13 / 20)%R = (3 / 2 / 10 + 1 / 2)%R. Proof. field. Qed.
Lemma sep_finer P zeros : separated (11 / 10) P zeros -> separated 2 (fst P + 1, snd P + 1) zeros.
Proof.
  intros Hs z1 z2 H1 H2 A B. cbn [fst snd] in A, B. rewrite ten_less in A, B. apply Hs; [exact H1|exact H2| |];
    pose proof (Q2R_pow10_pos (- fst P)); pose proof (Q2R_pow10_pos (- snd P)); Lra.lra.
Qed.

Section PolySearch.
  Context {S : Type} (E : env S).
  Variables (B d e rho : R) (zeros : list point) (depth : nat).
  Variables (f df : holoFunc) (dflt : Z * Z) (reRan imRan : Q * Q) (prec : option (Z * Z)).
  Variables (p : option (Z * Z)) (sp : Z * Z) (iter : list root -> list root).
  Notation P := (search_precision dflt prec).
  Notation P' := (match prec with Some q => q | None => dflt end).
  Notation x := (serial_context f (Some df) dflt reRan imRan prec).
  Hypothesis HI : iteration_order iter.

  Definition serial_result (out : rcont * res unit) : Prop :=
    snd out = Ok tt /\
    let pairs := reported_pairs iter (fst out) in
    all_found 2 P zeros reRan imRan pairs /\
    all_genuine 2 P P zeros reRan imRan pairs /\
    (separated 2 P zeros ->
       all_found 1 P zeros reRan imRan pairs /\
       all_genuine 1 P P zeros reRan imRan pairs /\
       orders_right 1 P P zeros reRan imRan pairs /\
       exactly_once 1 P zeros reRan imRan pairs).

  Lemma serial_both info s :
    let out := calculateRoots f (Some df) dflt (argument_algorithm E PolyV depth info s) reRan imRan prec (rc_init p sp) in
    reliable E zeros P (rect_of x) -> resolvable B d e rho E zeros P (rect_of x) ->
    (snd out = Err RecursionError /\ ar_end (argument_algorithm E PolyV depth info s x) = Some RecursionError) \/ serial_result out.
  Proof.
    intros out HR HC.
    pose proof (fun t Ht => poly_both B d e rho E zeros depth s x t Ht (rect_proper f (Some df) dflt reRan imRan prec) ltac:(discriminate) HR HC) as HS.
    destruct (serial_spots E PolyV (3 / 2) 2 zeros (separated 2 P zeros) (separated 2 P zeros) depth info s f (Some df) dflt reRan imRan prec p sp iter
      HI three_two (proj1 (HS _ (or_introl (Rle_refl _))))) as [H|(H & A & A2 & _ & _)]; [left; exact H|right].
    split; [exact H|]. cbv zeta. split; [exact A|]. split; [exact A2|]. intro Hs.
    destruct (serial_spots E PolyV (1 / 2) 1 zeros (separated 2 P zeros) (separated 2 P zeros) depth info s f (Some df) dflt reRan imRan prec p sp iter
      HI half_one (proj1 (HS _ (or_intror (conj (Rle_refl _) Hs))))) as [[C _]|(_ & A' & B' & C' & D')].
    - exfalso. pose proof (eq_trans (eq_sym H) C) as X. discriminate X.
    - split; [exact A'|]. split; [exact B'|]. split; [exact (C' Hs)|]. apply D'; [exact Hs|exact Hs|].
      rewrite Rmult_1_r. exact Hs.
  Qed.

  Lemma C76_serial_lemma info s :
    let out := calculateRoots f (Some df) dflt (argument_algorithm E PolyV depth info s) reRan imRan prec (rc_init p sp) in
    reliable E zeros P (rect_of x) -> resolvable B d e rho E zeros P (rect_of x) ->
    snd out = Err RecursionError \/ serial_result out.
  Proof. intros out HR HC. destruct (serial_both info s HR HC) as [[H _]|H]; auto. Qed.

  Lemma C76_complete_lemma info s a b :
    let out := calculateRoots f (Some df) dflt (argument_algorithm E PolyV depth info s) reRan imRan prec (rc_init p sp) in
    reliable E zeros P (rect_of x) -> resolvable B d e rho E zeros P (rect_of x) ->
    halvings (Qabs (fst reRan - snd reRan) + 3 * pow10 (- fst P)) (fst P) a ->
    halvings (Qabs (fst imRan - snd imRan) + 7 * pow10 (- snd P)) (snd P) b ->
    (a + b < depth)%nat -> serial_result out.
  Proof.
    intros out HR HC Ha Hb Hd. destruct (serial_both info s HR HC) as [[_ H]|H]; [exfalso|exact H].
    destruct (poly_both B d e rho E zeros depth s x (3 / 2) (or_introl (Rle_refl _)) (rect_proper f (Some df) dflt reRan imRan prec) ltac:(discriminate) HR HC) as [_ HDp].
    pose proof (rect_halvings f (Some df) dflt reRan imRan prec a b Ha Hb) as [Ha' Hb'].
    rewrite (HDp a b Ha' Hb' Hd info) in H. discriminate.
  Qed.

  Section Jobs.
    Variables (n : nat) (st : rctx -> S).
    Notation jobs := (createRootJobs n x).
    Notation outs := (map (fun job => worker_output E PolyV depth (st job) job) jobs).
    Hypothesis Hn : (1 <= n)%nat.
    Hypothesis HR : forall job, In job jobs ->
      reliable E zeros P (rect_of job) /\ resolvable B d e rho E zeros P (rect_of job).

    Lemma poly_job t job : (3 / 2 <= t \/ (1 / 2 <= t /\ separated 2 P zeros))%R -> In job jobs ->
      run_spots E PolyV t zeros (separated 2 P zeros) (separated 2 P zeros) depth (st job) job /\ avoids zeros (rect_of job) /\
      forall a b, halvings (Qabs (fst reRan - snd reRan) + 3 * pow10 (- fst P)) (fst P) a ->
        halvings (Qabs (fst imRan - snd imRan) + 7 * pow10 (- snd P)) (snd P) b ->
        (a + b < depth)%nat -> snd (worker_output E PolyV depth (st job) job) = None.
    Proof.
      intros Ht H. destruct (HR job H) as [HR1 HR2].
      destruct (job_inside 1 n f (Some df) dflt reRan imRan prec 0 0 Hn (Nat.lt_0_succ 0) job H) as ((S1 & S2 & S3 & S4) & Hp & HP).
      rewrite <- HP in HR1, HR2, Ht.
      assert (Hdf : cx_df job <> None).
      { apply (jobs_in n x Hn) in H. destruct H as (i & j & _ & _ & ->). discriminate. }
      destruct (poly_both B d e rho E zeros depth (st job) job t Ht Hp Hdf HR1 HR2) as [X Y]. rewrite HP in X.
      split; [exact X|]. split; [exact (proj1 (HR1 (rect_of job) (st job) (cell_whole _ _)))|].
      intros a b Ha Hb Hd.
      pose proof (rect_halvings f (Some df) dflt reRan imRan prec a b Ha Hb) as [Ha' Hb'].
      apply (Y a b); [| |exact Hd]; rewrite HP; (eapply Qle_lt_trans; [|eassumption]); Lqa.lra.
    Qed.
    Let coarse job H := poly_job (3 / 2) job (or_introl (Rle_refl _)) H.
    Let fine Hs job H := poly_job (1 / 2) job (or_intror (conj (Rle_refl _) Hs)) H.

    Lemma C76_parallel_lemma ev info : pool_behaviour outs ev ->
      let out := parallel_calculateRoots f dflt reRan imRan prec info ev (rc_init p sp) in
      (forall x', ev = PoolRaised x' -> snd out = Err RecursionError) /\
      (forall q, ev = PoolDone q ->
         snd out = Ok tt /\
         let pairs := reported_pairs iter (fst out) in
         all_found (13 / 20) P' zeros reRan imRan pairs /\
         all_genuine (13 / 20) P' P zeros reRan imRan pairs /\
         (separated 2 P zeros ->
            all_found (11 / 20) P' zeros reRan imRan pairs /\
            all_genuine (11 / 20) P' P zeros reRan imRan pairs /\
            orders_right (11 / 20) P' P zeros reRan imRan pairs) /\
         (separated (11 / 10) P' zeros -> exactly_once (11 / 20) P' zeros reRan imRan pairs)).
    Proof.
      intros HB out.
      destruct (parallel_spots E PolyV (3 / 2) (13 / 20) zeros (separated 2 P zeros) (separated 2 P zeros) depth n st f (Some df) dflt reRan imRan prec p sp iter
        Hn HI three_thirteen (fun job H => proj1 (proj2 (coarse job H))) (fun job H => proj1 (coarse job H)) ev info HB) as [A1 A2].
      split; [intros x' H; exact (proj1 (A1 x' H))|].
      intros q Hq. destruct (A2 q Hq) as (B1 & B2 & B3 & _ & _).
      split; [exact B1|]. cbv zeta. split; [exact B2|]. split; [exact B3|].
      assert (F : separated 2 P zeros -> all_found (11 / 20) P' zeros reRan imRan (reported_pairs iter (fst out)) /\
            all_genuine (11 / 20) P' P zeros reRan imRan (reported_pairs iter (fst out)) /\
            orders_right (11 / 20) P' P zeros reRan imRan (reported_pairs iter (fst out)) /\
            (separated (2 * (11 / 20)) P' zeros -> exactly_once (11 / 20) P' zeros reRan imRan (reported_pairs iter (fst out)))).
      { intro Hs. destruct (parallel_spots E PolyV (1 / 2) (11 / 20) zeros (separated 2 P zeros) (separated 2 P zeros) depth n st f (Some df) dflt reRan imRan prec p sp iter
        Hn HI half_eleven (fun job H => proj1 (proj2 (fine Hs job H))) (fun job H => proj1 (fine Hs job H)) ev info HB) as [_ A3].
        destruct (A3 q Hq) as (_ & C2 & C3 & C4 & C5). split; [exact C2|]. split; [exact C3|]. split; [exact (C4 Hs)|exact (C5 Hs Hs)]. }
      split; [intro Hs; destruct (F Hs) as (X1 & X2 & X3 & _); auto|].
      intro Hs. apply (F (sep_finer _ _ Hs)). replace (2 * (11 / 20))%R with (11 / 10)%R by field. exact Hs.
    Qed.

    Lemma C76_parallel_complete_lemma a b ev info :
      halvings (Qabs (fst reRan - snd reRan) + 3 * pow10 (- fst P)) (fst P) a ->
      halvings (Qabs (fst imRan - snd imRan) + 7 * pow10 (- snd P)) (snd P) b ->
      (a + b < depth)%nat -> pool_behaviour outs ev ->
      (forall x', ev <> PoolRaised x') /\
      let out := parallel_calculateRoots f dflt reRan imRan prec info ev (rc_init p sp) in
      snd out = Ok tt /\
      let pairs := reported_pairs iter (fst out) in
      all_genuine (13 / 20) P' P zeros reRan imRan pairs /\
      (separated 2 P zeros ->
         all_genuine (11 / 20) P' P zeros reRan imRan pairs /\ orders_right (11 / 20) P' P zeros reRan imRan pairs) /\
      (forall q, ev = PoolDone q ->
         all_found (13 / 20) P' zeros reRan imRan pairs /\
         (separated 2 P zeros -> all_found (11 / 20) P' zeros reRan imRan pairs) /\
         (separated (11 / 10) P' zeros -> exactly_once (11 / 20) P' zeros reRan imRan pairs)).
    Proof.
      intros Ha Hb Hd HB.
      assert (HN : forall o, In o outs -> snd o = None).
      { intros o Ho. apply in_map_iff in Ho. destruct Ho as (job & <- & Hj).
        exact (proj2 (proj2 (coarse job Hj)) a b Ha Hb Hd). }
      destruct (C76_parallel_lemma ev info HB) as [A1 A2]. destruct ev as [q|q|x'].
      - split; [intros x' C; discriminate|]. intro out. destruct (A2 q eq_refl) as (B1 & B2 & B3 & B4 & B5).
        split; [exact B1|]. cbv zeta. split; [exact B3|]. split; [intro Hs; destruct (B4 Hs) as (_ & X2 & X3); auto|].
        intros q' _. split; [exact B2|]. split; [intro Hs; exact (proj1 (B4 Hs))|exact B5].
      - split; [intros x' C; discriminate|]. intro out.
        destruct (parallel_cut E PolyV (3 / 2) (13 / 20) zeros (separated 2 P zeros) (separated 2 P zeros) depth n st f (Some df) dflt reRan imRan prec p sp iter
          Hn HI three_thirteen (fun job H => proj1 (proj2 (coarse job H))) (fun job H => proj1 (coarse job H)) q info HN HB)
          as (B1 & B2 & _).
        split; [exact B1|]. cbv zeta. split; [exact B2|]. split; [|intros q' C; discriminate].
        intro Hs. destruct (parallel_cut E PolyV (1 / 2) (11 / 20) zeros (separated 2 P zeros) (separated 2 P zeros) depth n st f (Some df) dflt reRan imRan prec p sp iter
          Hn HI half_eleven (fun job H => proj1 (proj2 (fine Hs job H))) (fun job H => proj1 (fine Hs job H)) q info HN HB)
          as (_ & C2 & C3). split; [exact C2|exact (C3 Hs)].
      - exfalso. destruct HB as (o & Ho & Hx). rewrite (HN o Ho) in Hx. discriminate.
    Qed.
  End Jobs.
End PolySearch.
