(** * Serial and parallel searches with the quadrature estimator *)
From Coq Require Import Reals Qreals Qminmax.
From Verif Require Import PyBase Rounding_Model Poly_Model Container_Model Container_Spec Finder_Model Finder_Spec
  Refine_Model Refine_Spec Zeros_Spec Zeros_Proofs Cache_Model Sum_Model Sum_Spec Quad_Model Quad_Spec Arg_Spec Moment_Spec Moment_Proofs8
  EndToEnd_Model EndToEnd_Spec EndToEnd_Proofs EndToEnd_Proofs2 EndToEnd_Proofs3
  Whole_Search Whole_Proofs2 Qsearch_Model Qsearch_Spec Qsearch_Proofs.
From Coq Require Import Lqa Lra.
Open Scope R_scope.

Section Searches.
  Variables (F DF : cR -> cR) (zeros : list point) (turns : R -> Q) (eps : R) (eprec : Z * Z) (fuel : nat) (debug : bool)
    (secant : cplx -> cplx -> res cplx) (newton : cplx -> res cplx)
    (polyroots : list cplx -> res (list cplx)) (has_df progress : bool).
  Notation E := (quad_env turns romberg (called F) (Some (called DF)) eprec fuel debug secant newton polyroots has_df progress).
  Hypothesis turns_ok : converts turns eps.
  Hypothesis eps_small : eps <= 1 / 25.
  Hypothesis fuel_big : (2 <= fuel)%nat.

  Lemma C74_serial_lemma depth info s0 f df dflt reRan imRan prec p sp iter :
    let P := search_precision dflt prec in
    let r := rect_of (serial_context f df dflt reRan imRan prec) in
    let out := calculateRoots f df dflt (argument_algorithm E Simple depth info s0) reRan imRan prec (rc_init p sp) in
    iteration_order iter -> quad_resolved F DF zeros P r ->
    snd out = Err RecursionError \/
    (snd out = Ok tt /\
     let pairs := reported_pairs iter (fst out) in
     all_found 1 P zeros reRan imRan pairs /\
     all_genuine 1 P P zeros reRan imRan pairs /\
     (separated 1 P zeros -> orders_right 1 P P zeros reRan imRan pairs) /\
     (separated 2 P zeros -> exactly_once 1 P zeros reRan imRan pairs)).
  Proof.
    intros P r out HI HR. set (x := serial_context f df dflt reRan imRan prec) in *.
    pose proof (rect_wide f df dflt reRan imRan prec : (x1 (rect_of x) < x2 (rect_of x) /\ y1 (rect_of x) < y2 (rect_of x))%Q) as W.
    assert (Eo : out = calculateRoots f df dflt (argument_algorithm (repaired zeros E) Simple depth info s0) reRan imRan prec (rc_init p sp)).
    { unfold out, calculateRoots. fold x.
      rewrite (quad_agree F DF zeros turns eps eprec fuel debug secant newton polyroots has_df progress turns_ok eps_small fuel_big
        Simple x s0 depth info ltac:(discriminate) W HR). reflexivity. }
    rewrite Eo. apply (C63_any_depth_lemma _ (repaired zeros E) zeros depth info s0 f df dflt reRan imRan prec p sp iter HI).
    apply quad_reliable. exact HR.
  Qed.

  Lemma C74_complete_lemma depth info s0 f df dflt reRan imRan prec p sp iter a b :
    let P := search_precision dflt prec in
    let r := rect_of (serial_context f df dflt reRan imRan prec) in
    let out := calculateRoots f df dflt (argument_algorithm E Simple depth info s0) reRan imRan prec (rc_init p sp) in
    iteration_order iter -> quad_resolved F DF zeros P r ->
    halvings (Qabs (fst reRan - snd reRan) + 3 * pow10 (- fst P)) (fst P) a ->
    halvings (Qabs (fst imRan - snd imRan) + 7 * pow10 (- snd P)) (snd P) b ->
    (a + b < depth)%nat ->
    snd out = Ok tt /\
    let pairs := reported_pairs iter (fst out) in
    all_found 1 P zeros reRan imRan pairs /\
    all_genuine 1 P P zeros reRan imRan pairs /\
    (separated 1 P zeros -> orders_right 1 P P zeros reRan imRan pairs) /\
    (separated 2 P zeros -> exactly_once 1 P zeros reRan imRan pairs).
  Proof.
    intros P r out HI HR Ha Hb Hd. set (x := serial_context f df dflt reRan imRan prec) in *.
    pose proof (rect_wide f df dflt reRan imRan prec : (x1 (rect_of x) < x2 (rect_of x) /\ y1 (rect_of x) < y2 (rect_of x))%Q) as W.
    assert (Eo : out = calculateRoots f df dflt (argument_algorithm (repaired zeros E) Simple depth info s0) reRan imRan prec (rc_init p sp)).
    { unfold out, calculateRoots. fold x.
      rewrite (quad_agree F DF zeros turns eps eprec fuel debug secant newton polyroots has_df progress turns_ok eps_small fuel_big
        Simple x s0 depth info ltac:(discriminate) W HR). reflexivity. }
    rewrite Eo. apply (C63_serial_lemma (repaired zeros E) zeros depth info s0 f df dflt reRan imRan prec p sp iter a b HI Ha Hb Hd).
    apply quad_reliable. exact HR.
  Qed.

  Variables (m depth : nat) (st : rctx -> ecache * unit) (f : holoFunc) (df : option holoFunc) (dflt : Z * Z) (reRan imRan : Q * Q)
    (prec p : option (Z * Z)) (sp : Z * Z) (iter : list root -> list root).
  Notation P := (search_precision dflt prec).
  Notation P' := (match prec with Some q => q | None => dflt end).
  Notation x := (serial_context f df dflt reRan imRan prec).
  Notation jobs := (createRootJobs m x).
  Hypothesis m_pos : (1 <= m)%nat.
  Hypothesis HI : iteration_order iter.
  Hypothesis HR : forall job, In job jobs -> quad_resolved F DF zeros P (rect_of job).
  Notation outs := (map (fun job => worker_output E Simple depth (st job) job) jobs).
  Notation outs' := (map (fun job => worker_output (repaired zeros E) Simple depth (st job) job) jobs).

  Lemma quad_outs : outs = outs'.
  Proof.
    apply map_ext_in. intros job H.
    destruct (job_wide m x job m_pos (rect_wide f df dflt reRan imRan prec) H) as [W EP].
    change (cx_precision x) with P in EP. unfold worker_output. cbv zeta.
    rewrite (quad_agree F DF zeros turns eps eprec fuel debug secant newton polyroots has_df progress turns_ok eps_small fuel_big
      Simple job (st job) depth (fun _ => false) ltac:(discriminate) W). { reflexivity. }
    rewrite EP. exact (HR job H).
  Qed.
  Lemma quad_jobs_reliable job : In job jobs -> reliable (repaired zeros E) zeros P (rect_of job).
  Proof. intro H. apply quad_reliable. exact (HR job H). Qed.

  Lemma C74_parallel_lemma e info : pool_behaviour outs e ->
    let out := parallel_calculateRoots f dflt reRan imRan prec info e (rc_init p sp) in
    (forall x', e = PoolRaised x' -> snd out = Err RecursionError) /\
    (forall q, e = PoolDone q ->
       snd out = Ok tt /\
       let pairs := reported_pairs iter (fst out) in
       all_found (11 / 20) P' zeros reRan imRan pairs /\
       all_genuine (11 / 20) P' P zeros reRan imRan pairs /\
       (separated 1 P zeros -> orders_right (11 / 20) P' P zeros reRan imRan pairs) /\
       (separated (11 / 10) P' zeros -> exactly_once (11 / 20) P' zeros reRan imRan pairs)).
  Proof.
    intro HB. rewrite quad_outs in HB.
    pose proof (C63_parallel_any_depth_lemma _ (repaired zeros E) zeros depth m st
      f df dflt reRan imRan prec p sp iter m_pos HI quad_jobs_reliable) as HL. cbv zeta in HL.
    exact (HL e info HB).
  Qed.

  Lemma C74_parallel_complete_lemma a b e info :
    halvings (Qabs (fst reRan - snd reRan) + 3 * pow10 (- fst P)) (fst P) a ->
    halvings (Qabs (fst imRan - snd imRan) + 7 * pow10 (- snd P)) (snd P) b ->
    (a + b < depth)%nat -> pool_behaviour outs e ->
    (forall x', e <> PoolRaised x') /\
    let out := parallel_calculateRoots f dflt reRan imRan prec info e (rc_init p sp) in
    snd out = Ok tt /\
    let pairs := reported_pairs iter (fst out) in
    all_genuine (11 / 20) P' P zeros reRan imRan pairs /\
    (separated 1 P zeros -> orders_right (11 / 20) P' P zeros reRan imRan pairs) /\
    (forall q, e = PoolDone q ->
       all_found (11 / 20) P' zeros reRan imRan pairs /\
       (separated (11 / 10) P' zeros -> exactly_once (11 / 20) P' zeros reRan imRan pairs)).
  Proof.
    intros Ha Hb Hd HB. rewrite quad_outs in HB.
    exact (C63_parallel_lemma (repaired zeros E) zeros depth m st
      f df dflt reRan imRan prec p sp iter a b m_pos HI Ha Hb Hd quad_jobs_reliable e info HB).
  Qed.
End Searches.

(** ** Polynomials *)
Lemma zeros_bounded (zeros : list point) : exists B, 1 <= B /\ forall w, In w zeros -> Rabs (fst w) + Rabs (snd w) <= B.
Proof.
  induction zeros as [|z l (B & HB & IH)]; [exists 1; split; [lra|intros w []]|].
  pose proof (Rabs_pos (fst z)). pose proof (Rabs_pos (snd z)).
  exists (B + (Rabs (fst z) + Rabs (snd z))). split; [lra|]. intros w [<-|H1]; [lra|]. specialize (IH w H1). lra.
Qed.

Lemma abs_between a b x : a <= x <= b -> Rabs x <= Rabs a + Rabs b.
Proof. intros [H1 H2]. unfold Rabs. repeat destruct Rcase_abs; lra. Qed.

Lemma C74_polynomial_lemma lead zeros P r k :
  lead <> (0, 0) -> (x1 r < x2 r)%Q -> (y1 r < y2 r)%Q -> 0 < k -> well_inside k zeros P r ->
  INR (List.length zeros) / (k ^ 3 * 4 ^ 10) < 1 / 2000 ->
  quad_resolved (fun p => times lead (product_of zeros p)) (fun p => times lead (derivative_of zeros p)) zeros P r.
Proof.
  intros HL Hx Hy Hk HW He. exists (INR (List.length zeros) / (k ^ 3 * 4 ^ 10)). split; [exact He|].
  intros q Hq. destruct (HW q Hq) as (D & Dx & Dy & Hd).
  destruct (cell_wide P r q (conj Hx Hy) Hq) as [Wx Wy].
  destruct (zeros_bounded zeros) as (B & B1 & B2).
  assert (DP : 0 < D) by (apply Qlt_Rlt in Wx; lra).
  set (C := Rabs (Q2R (x1 q)) + Rabs (Q2R (x2 q)) + Rabs (Q2R (y1 q)) + Rabs (Q2R (y2 q))).
  assert (CP : 0 <= C).
  { unfold C. pose proof (Rabs_pos (Q2R (x1 q))). pose proof (Rabs_pos (Q2R (x2 q))). pose proof (Rabs_pos (Q2R (y1 q))).
    pose proof (Rabs_pos (Q2R (y2 q))). lra. }
  assert (I : integrable (fun p => times lead (product_of zeros p)) (fun p => times lead (derivative_of zeros p)) zeros 0
    (INR (List.length zeros) * (B + C) ^ 0 * (3 / (k * D) ^ 3 + INR 0 ^ 3) * D ^ 3 / (3 * 4 ^ 10)) q).
  { apply polynomial_integrable; try assumption.
    - apply Rmult_lt_0_compat; assumption.
    - lra.
    - intros w Hw. specialize (B2 w Hw). lra.
    - intros p [[Hp1 Hp2] _]. apply abs_between in Hp1, Hp2. unfold C. lra. }
  replace (INR (List.length zeros) / (k ^ 3 * 4 ^ 10))
    with (INR (List.length zeros) * (B + C) ^ 0 * (3 / (k * D) ^ 3 + INR 0 ^ 3) * D ^ 3 / (3 * 4 ^ 10)); [exact I|].
  change (INR 0) with 0. field. split; apply Rgt_not_eq; assumption.
Qed.
