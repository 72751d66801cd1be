(** Searches of the Newton-assisted algorithm with the summation and the quadrature estimator. *)
From Coq Require Import Reals Qreals Qminmax.
From Verif Require Import PyBase Rounding_Model Rounding_Proofs Poly_Model Container_Model Container_Spec Finder_Model Finder_Spec Finder_Proofs
  Refine_Model Refine_Spec Zeros_Spec Zeros_Proofs Cache_Model
  Sum_Model Sum_Spec Quad_Model Quad_Spec Arg_Spec Moment_Spec EndToEnd_Model EndToEnd_Spec EndToEnd_Proofs EndToEnd_Proofs2 EndToEnd_Proofs3
  Whole_Model Whole_Grid Whole_Entry Whole_Inv Whole_Search Whole_Spec Whole_Proofs Whole_Proofs2
  Qsearch_Model Qsearch_Spec Qsearch_Proofs Qsearch_Proofs2 Assist_Spec Assist_Proofs Assist_Proofs2 Assist_Proofs3.
From Coq Require Import Lqa Lra.
Open Scope R_scope.

Section Assist.
  Variables (zeros : list point) (turns : R -> Q) (eps : R) (eprec : Z * Z) (fuel : nat) (debug : bool)
    (secant : cplx -> cplx -> res cplx) (newton : cplx -> res cplx)
    (polyroots : list cplx -> res (list cplx)) (has_df progress : bool).
  Variables (depth : nat) (f : holoFunc) (df : option holoFunc) (dflt : Z * Z) (reRan imRan : Q * Q)
    (prec p : option (Z * Z)) (sp : Z * Z) (iter : list root -> list root).
  Notation P := (search_precision dflt prec).
  Notation P' := (match prec with Some q => q | None => dflt end).
  Notation x := (serial_context f df dflt reRan imRan prec).
  Notation r := (rect_of x).
  Hypothesis HI : iteration_order iter.
  Notation answer out :=
    (snd out = Ok tt /\
     let pairs := reported_pairs iter (fst out) in
     all_found 1 P zeros reRan imRan pairs /\
     all_genuine 1 P P zeros reRan imRan pairs /\
     (separated 1 P zeros -> orders_right 1 P P zeros reRan imRan pairs) /\
     (df = None -> separated 2 P zeros -> exactly_once 1 P zeros reRan imRan pairs)).
  Notation par_answer out :=
    (snd out = Ok tt /\
     let pairs := reported_pairs iter (fst out) in
     all_found (11 / 20) P' zeros reRan imRan pairs /\
     all_genuine (11 / 20) P' P zeros reRan imRan pairs /\
     (separated 1 P zeros -> orders_right (11 / 20) P' P zeros reRan imRan pairs) /\
     (df = None -> separated (11 / 10) P' zeros -> exactly_once (11 / 20) P' zeros reRan imRan pairs)).
  Notation par_answer' out e :=
    (snd out = Ok tt /\
     let pairs := reported_pairs iter (fst out) in
     all_genuine (11 / 20) P' P zeros reRan imRan pairs /\
     (separated 1 P zeros -> orders_right (11 / 20) P' P zeros reRan imRan pairs) /\
     (forall q, e = PoolDone q ->
        all_found (11 / 20) P' zeros reRan imRan pairs /\
        (df = None -> separated (11 / 10) P' zeros -> exactly_once (11 / 20) P' zeros reRan imRan pairs))).

  Section SumAssist.
    Variables (g : cplx -> cR) (delta : R) (mp : Q) (n : nat).
    Notation E := (sum_env turns g delta mp n eprec fuel debug secant newton polyroots has_df progress).
    Hypothesis delta_pos : 0 < delta.
    Hypothesis n_big : (2 <= n)%nat.
    Hypothesis fuel_big : (100 * n + 3 <= fuel)%nat.
    Hypothesis turns_ok : faithful turns eps.

    Lemma C75_sum_serial_lemma info :
      let out := calculateRoots f df dflt (argument_algorithm E NewtonV depth info new_estimator) reRan imRan prec (rc_init p sp) in
      resolved g zeros n eps P r -> converging secant newton df zeros P r ->
      snd out = Err RecursionError \/ (snd out = Err IndexError /\ ~ dense n P r) \/ answer out.
    Proof.
      intros out HR HC.
      pose proof (rect_wide f df dflt reRan imRan prec : (x1 r < x2 r /\ y1 r < y2 r)%Q) as W.
      destruct (run_agree g zeros turns eps delta mp n eprec fuel debug secant newton polyroots has_df progress
        delta_pos n_big fuel_big turns_ok x W HR new_estimator (fresh_untouched _ _) NewtonV depth info ltac:(discriminate)) as [[He HT]|He].
      - right. left. split; [|intro HD; exact (dense_loose n P r W n_big HD HT)].
        unfold out, calculateRoots. cbv zeta.
        set (run := argument_algorithm E NewtonV depth info new_estimator x) in *.
        pose proof (proj1 (fresh_feed (toFilterContext x) (ar_reports run) p sp iter ((0, 0)%Q, 0%Z) HI)) as H1.
        destruct (feed (toFilterContext x) (ar_reports run) (rc_init p sp)) as [c1 r1].
        cbn [snd] in H1. subst r1. rewrite He. reflexivity.
      - assert (Eo : out = calculateRoots f df dflt (argument_algorithm (repaired zeros E) NewtonV depth info new_estimator)
                      reRan imRan prec (rc_init p sp)).
        { unfold out, calculateRoots. rewrite He. reflexivity. }
        rewrite Eo.
        destruct (C75_serial_lemma (repaired zeros E) zeros depth f df dflt reRan imRan prec p sp iter HI info new_estimator
          (run_reliable g zeros turns eps delta mp n eprec fuel debug secant newton polyroots has_df progress x HR) HC) as [H|H]; auto.
    Qed.

    Lemma C75_sum_complete_lemma info a b :
      let out := calculateRoots f df dflt (argument_algorithm E NewtonV depth info new_estimator) reRan imRan prec (rc_init p sp) in
      resolved g zeros n eps P r -> dense n P r -> converging secant newton df zeros P r ->
      halvings (Qabs (fst reRan - snd reRan) + 3 * pow10 (- fst P)) (fst P) a ->
      halvings (Qabs (fst imRan - snd imRan) + 7 * pow10 (- snd P)) (snd P) b ->
      (a + b < depth)%nat -> answer out.
    Proof.
      intros out HR HD HC Ha Hb Hd.
      pose proof (rect_wide f df dflt reRan imRan prec : (x1 r < x2 r /\ y1 r < y2 r)%Q) as W.
      assert (Eo : out = calculateRoots f df dflt (argument_algorithm (repaired zeros E) NewtonV depth info new_estimator)
                    reRan imRan prec (rc_init p sp)).
      { unfold out, calculateRoots.
        rewrite (run_dense g zeros turns eps delta mp n eprec fuel debug secant newton polyroots has_df progress
          delta_pos n_big fuel_big turns_ok x W HR new_estimator (fresh_untouched _ _) NewtonV depth info ltac:(discriminate) HD). reflexivity. }
      rewrite Eo. exact (C75_complete_lemma (repaired zeros E) zeros depth f df dflt reRan imRan prec p sp iter HI info new_estimator a b
        (run_reliable g zeros turns eps delta mp n eprec fuel debug secant newton polyroots has_df progress x HR) HC Ha Hb Hd).
    Qed.
  End SumAssist.

  Section QuadAssist.
    Variables (F DF : cR -> cR).
    Notation E := (quad_env turns romberg (called F) (Some (called DF)) eprec fuel debug secant newton polyroots has_df progress).
    Hypothesis turns_ok : converts turns eps.
    Hypothesis eps_small : eps <= 1 / 25.
    Hypothesis fuel_big : (2 <= fuel)%nat.

    Lemma quad_newton info s0 : quad_resolved F DF zeros P r ->
      calculateRoots f df dflt (argument_algorithm E NewtonV depth info s0) reRan imRan prec (rc_init p sp) =
      calculateRoots f df dflt (argument_algorithm (repaired zeros E) NewtonV depth info s0) reRan imRan prec (rc_init p sp).
    Proof.
      intro HR. pose proof (rect_wide f df dflt reRan imRan prec : (x1 r < x2 r /\ y1 r < y2 r)%Q) as W.
      unfold calculateRoots.
      rewrite (quad_agree F DF zeros turns eps eprec fuel debug secant newton polyroots has_df progress turns_ok eps_small fuel_big
        NewtonV x s0 depth info ltac:(discriminate) W HR). reflexivity.
    Qed.

    Lemma C75_quad_serial_lemma info s0 :
      let out := calculateRoots f df dflt (argument_algorithm E NewtonV depth info s0) reRan imRan prec (rc_init p sp) in
      quad_resolved F DF zeros P r -> converging secant newton df zeros P r ->
      snd out = Err RecursionError \/ answer out.
    Proof.
      intros out HR HC. unfold out. rewrite (quad_newton info s0 HR).
      exact (C75_serial_lemma (repaired zeros E) zeros depth f df dflt reRan imRan prec p sp iter HI info s0
        (quad_reliable F DF zeros turns eprec fuel debug secant newton polyroots has_df progress P r HR) HC).
    Qed.

    Lemma C75_quad_complete_lemma info s0 a b :
      let out := calculateRoots f df dflt (argument_algorithm E NewtonV depth info s0) reRan imRan prec (rc_init p sp) in
      quad_resolved F DF zeros P r -> converging secant newton df zeros P r ->
      halvings (Qabs (fst reRan - snd reRan) + 3 * pow10 (- fst P)) (fst P) a ->
      halvings (Qabs (fst imRan - snd imRan) + 7 * pow10 (- snd P)) (snd P) b ->
      (a + b < depth)%nat -> answer out.
    Proof.
      intros out HR HC Ha Hb Hd. unfold out. rewrite (quad_newton info s0 HR).
      exact (C75_complete_lemma (repaired zeros E) zeros depth f df dflt reRan imRan prec p sp iter HI info s0 a b
        (quad_reliable F DF zeros turns eprec fuel debug secant newton polyroots has_df progress P r HR) HC Ha Hb Hd).
    Qed.

    Variables (m : nat) (st : rctx -> ecache * unit).
    Notation jobs := (createRootJobs m x).
    Hypothesis m_pos : (1 <= m)%nat.
    Hypothesis HR : forall job, In job jobs -> quad_resolved F DF zeros P (rect_of job) /\ converging secant newton df zeros P (rect_of job).
    Notation outs := (map (fun job => worker_output E NewtonV depth (st job) job) jobs).
    Notation outs' := (map (fun job => worker_output (repaired zeros E) NewtonV depth (st job) job) jobs).

    Lemma quad_newton_outs : outs = outs'.
    Proof.
      apply map_ext_in. intros job H.
      destruct (job_wide m x job m_pos (rect_wide f df dflt reRan imRan prec) H) as [W EP].
      change (cx_precision x) with P in EP. unfold worker_output. cbv zeta.
      rewrite (quad_agree F DF zeros turns eps eprec fuel debug secant newton polyroots has_df progress turns_ok eps_small fuel_big
        NewtonV job (st job) depth (fun _ => false) ltac:(discriminate) W). { reflexivity. }
      rewrite EP. exact (proj1 (HR job H)).
    Qed.
    Lemma quad_newton_jobs job : In job jobs -> reliable (repaired zeros E) zeros P (rect_of job) /\
      converging (e_secant (repaired zeros E)) (e_newton (repaired zeros E)) df zeros P (rect_of job).
    Proof. intro H. split; [apply quad_reliable; exact (proj1 (HR job H))|exact (proj2 (HR job H))]. Qed.

    Lemma C75_quad_parallel_lemma e info : pool_behaviour outs e ->
      let out := parallel_calculateRoots f dflt reRan imRan prec info e (rc_init p sp) in
      (forall x', e = PoolRaised x' -> snd out = Err RecursionError) /\
      (forall q, e = PoolDone q -> par_answer out).
    Proof.
      intro HB. rewrite quad_newton_outs in HB.
      exact (C75_parallel_lemma (repaired zeros E) zeros depth f df dflt reRan imRan prec p sp iter HI m st
        m_pos quad_newton_jobs e info HB).
    Qed.

    Lemma C75_quad_parallel_complete_lemma a b e info :
      halvings (Qabs (fst reRan - snd reRan) + 3 * pow10 (- fst P)) (fst P) a ->
      halvings (Qabs (fst imRan - snd imRan) + 7 * pow10 (- snd P)) (snd P) b ->
      (a + b < depth)%nat -> pool_behaviour outs e ->
      (forall x', e <> PoolRaised x') /\
      let out := parallel_calculateRoots f dflt reRan imRan prec info e (rc_init p sp) in par_answer' out e.
    Proof.
      intros Ha Hb Hd HB. rewrite quad_newton_outs in HB.
      exact (C75_parallel_complete_lemma (repaired zeros E) zeros depth f df dflt reRan imRan prec p sp iter HI m st
        m_pos quad_newton_jobs a b e info Ha Hb Hd HB).
    Qed.
  End QuadAssist.
End Assist.
