(** * Whole searches with raising filters *)
From Verif Require Import PyBase Rounding_Model Rounding_Spec Container_Model Container_Spec Container_Proofs Finder_Model Finder_Spec Finder_Proofs
  Poly_Model Refine_Model Refine_Spec Refine_Proofs2 Refine_Proofs3 EndToEnd_Model Coupled_Model Coupled_Spec Coupled_Proofs.
Open Scope Z_scope.

Lemma couples_newton {S} (E E' : env S) fc info fl self self' r phi :
  (forall a b, e_secant E' a b = censor fc fl (e_secant E a b)) ->
  (forall a, e_newton E' a = censor fc fl (e_newton E a)) ->
  e_has_df E' = e_has_df E -> e_progress E' = e_progress E -> e_precision E' = e_precision E ->
  (forall q t, couples fc info fl (self q t) (self' q t)) ->
  (forall s r phi, getRootFromRectangle E' r phi s = getRootFromRectangle E r phi s) ->
  (forall s r phi, decide_simple E' self r phi s = decide_simple E self r phi s) ->
  couples fc info fl (decide_newton E' self r phi) (c_decide_newton E fc info self' r phi).
Proof.
  intros HS HN HD HP HE H HG HC. unfold decide_newton, c_decide_newton, epsRe, epsIm. rewrite HE.
  destruct (_ && _ && _).
  { eapply couples_ext; [intro; apply HG|]. apply couples_report. }
  destruct (_ && _); [apply couples_newton_branch; assumption|].
  eapply couples_ext; [intro; apply HC|]. apply couples_simple; exact H.
Qed.

Lemma couples_decide_newton {S} (E : env S) fc info fl sec new :
  (forall a b, sec a b = censor fc fl (e_secant E a b)) ->
  (forall a, new a = censor fc fl (e_newton E a)) ->
  forall n r phi, couples fc info fl (decideRefinement (with_iterations E sec new) NewtonV n r phi) (c_decideRefinement E fc info NewtonV n r phi).
Proof.
  intros HS HN. induction n as [|n IH]; intros r phi; [apply couples_fuel|].
  cbn [decideRefinement c_decideRefinement].
  apply couples_newton; try reflexivity; assumption.
Qed.

Lemma couples_decide {S} (E : env S) fc info fl v : v <> NewtonV ->
  forall n r phi, couples fc info fl (decideRefinement E v n r phi) (c_decideRefinement E fc info v n r phi).
Proof.
  intros Q. induction n as [|n IH]; intros r phi; [apply couples_fuel|]. cbn [decideRefinement c_decideRefinement].
  destruct v.
  - apply couples_simple; exact IH.
  - congruence.
  - apply couples_poly; exact IH.
Qed.

(** From a simulation of the refinement to one of the whole search. *)
Lemma search_into_general {S} (E E' : env S) v depth info s f df dflt reRan imRan prec c :
  let x := serial_context f df dflt reRan imRan prec in
  let fc := toFilterContext x in
  (forall n r phi, couples fc info (rc_filters c)
     (decideRefinement (env_for E' x) v n r phi) (c_decideRefinement (env_for E x) fc info v n r phi)) ->
  e_est E' = e_est E -> e_dirty E' = e_dirty E -> e_reset E' = e_reset E ->
  search_into E v depth info s f df dflt reRan imRan prec c =
  calculateRoots f df dflt (argument_algorithm E' v depth info s) reRan imRan prec c.
Proof.
  cbv zeta. intros Q H1 H2 H3. unfold search_into, calculateRoots, argument_algorithm.
  set (x := serial_context f df dflt reRan imRan prec) in *.
  assert (H : couples (toFilterContext x) info (rc_filters c)
     (calcRoots (env_for E' x) v depth (rect_of x)) (c_calcRoots (env_for E x) (toFilterContext x) info v depth (rect_of x))).
  { intros s0 c0 F. unfold calcRoots, c_calcRoots. cbn [fst snd].
    change (e_dirty (env_for E' x)) with (e_dirty E'). change (e_reset (env_for E' x)) with (e_reset E').
    rewrite H2, H3. change (e_dirty (env_for E x)) with (e_dirty E). change (e_reset (env_for E x)) with (e_reset E).
    assert (HM : couples (toFilterContext x) info (rc_filters c) (calcMoment (env_for E' x) 0 (rect_of x)) (c_calcMoment (env_for E x) (toFilterContext x) info 0 (rect_of x))).
    { eapply couples_ext with (n := calcMoment (env_for E x) 0 (rect_of x)); [|apply couples_moment].
      intro. unfold calcMoment. change (e_est (env_for E' x)) with (e_est E'). rewrite H1. reflexivity. }
    apply (couples_bind _ _ _ _ _ _ _ HM (fun m => Q depth (rect_of x) (re m)) _ c0 F). }
  specialize (H s c eq_refl).
  destruct (calcRoots (env_for E' x) v depth (rect_of x) s) as [[s' l] o]. cbn [ar_reports ar_end].
  unfold feedl, tagged in H. destruct (feed _ _ c) as [c' [u|e]].
  - destruct H as (l' & H). rewrite H. cbn [snd]. destruct o as [[]|e|]; [reflexivity| |reflexivity]. destruct e; reflexivity.
  - destruct H as (s'' & l' & H). rewrite H. cbn [snd]. destruct e; reflexivity.
Qed.

Lemma refused_iff c ctx z e : refused_with c ctx z e <-> run_filters (rc_filters c) (z, 1) ctx = Err e.
Proof.
  unfold refused_with, rc_add. destruct (run_filters _ _ _) as [[|]|e']; cbn [snd].
  - cbv zeta. destruct (_ && _); cbn; split; discriminate.
  - split; discriminate.
  - split; congruence.
Qed.

Lemma silenced_censor {A} c ctx (g g' : A -> res cplx) : silenced c ctx g g' ->
  forall a, g' a = censor ctx (rc_filters c) (g a).
Proof.
  intros H a. destruct (H a) as [H1 H2]. unfold censor. destruct (g a) as [z|e] eqn:G.
  - destruct (run_filters (rc_filters c) (z, 1) ctx) as [b|e] eqn:R.
    + rewrite H2; [reflexivity|]. intros z' e [= <-] X. apply refused_iff in X. congruence.
    + pose proof (caught e) as C. destruct (catches_RuntimeError e).
      * apply H1. exists z, e. rewrite refused_iff. auto.
      * rewrite H2; [reflexivity|]. intros z' e' [= <-] X. apply refused_iff in X. congruence.
  - rewrite H2; [reflexivity|]. intros z e'. discriminate.
Qed.

Lemma censor_silenced {A} c ctx (g : A -> res cplx) : silenced c ctx g (fun a => censor ctx (rc_filters c) (g a)).
Proof.
  intro a. split.
  - intros (z & e & G & R & I). unfold censor. rewrite G. apply refused_iff in R. rewrite R.
    pose proof (caught e). destruct (catches_RuntimeError e); [reflexivity|contradiction].
  - intro H. unfold censor. destruct (g a) as [z|e]; [|reflexivity].
    destruct (run_filters _ _ _) as [b|e] eqn:R; [reflexivity|]. apply refused_iff in R.
    specialize (H z e eq_refl R). pose proof (caught e). destruct (catches_RuntimeError e); [contradiction|reflexivity].
Qed.

(** ** C77: with the Newton-assisted algorithm *)
Lemma C77_newton_lemma {S} (E : env S) depth info s f df dflt reRan imRan prec c secant newton :
  let ctx := toFilterContext (serial_context f df dflt reRan imRan prec) in
  silenced c ctx (fun ab => e_secant E (fst ab) (snd ab)) (fun ab => secant (fst ab) (snd ab)) ->
  silenced c ctx (e_newton E) newton ->
  search_into E NewtonV depth info s f df dflt reRan imRan prec c =
  calculateRoots f df dflt (argument_algorithm (with_iterations E secant newton) NewtonV depth info s) reRan imRan prec c.
Proof.
  cbv zeta. intros HS HN. apply search_into_general; try reflexivity.
  intros n r phi.
  apply (couples_decide_newton (env_for E (serial_context f df dflt reRan imRan prec))).
  - intros a b. exact (silenced_censor _ _ _ _ HS (a, b)).
  - intro a. exact (silenced_censor _ _ _ _ HN a).
Qed.

Lemma search_into_eq {S} (E : env S) v depth info s f df dflt reRan imRan prec c :
  (v = NewtonV -> forall r e, run_filters (rc_filters c) r (toFilterContext (serial_context f df dflt reRan imRan prec)) = Err e ->
     ~ is_RuntimeError e) ->
  search_into E v depth info s f df dflt reRan imRan prec c =
  calculateRoots f df dflt (argument_algorithm E v depth info s) reRan imRan prec c.
Proof.
  intro Q.
  assert (D : v = NewtonV \/ v <> NewtonV) by (destruct v; [right|left|right]; congruence).
  destruct D as [->|D].
  - assert (X : forall {A} (g : A -> res cplx), silenced c (toFilterContext (serial_context f df dflt reRan imRan prec)) g g).
    { intros A g a. split; [|auto]. intros (z & e & _ & R & I). exfalso. apply refused_iff in R. exact (Q eq_refl _ _ R I). }
    rewrite (C77_newton_lemma E depth info s f df dflt reRan imRan prec c (e_secant E) (e_newton E)); [|apply X|apply X].
    destruct E; reflexivity.
  - apply search_into_general; try reflexivity. intros n r phi. apply couples_decide. exact D.
Qed.

(** A filter of the container that raises is one of the registered ones. *)
Lemma run_filters_no fs r ctx : run_filters fs r ctx = Ok false -> exists k q, In (k, q) fs /\ q r ctx = Ok false.
Proof.
  induction fs as [|[k q] fs IH]; [discriminate|]. cbn. destruct (q r ctx) as [[|]|e'] eqn:R.
  - intro H. destruct (IH H) as (k' & q' & I & X). exists k', q'. auto.
  - exists k, q. auto.
  - discriminate.
Qed.

Lemma registered_no p sp h r ctx : run_filters (rc_filters (rc_run h (rc_init p sp))) r ctx = Ok false ->
  exists k q, registered h k q /\ q r ctx = Ok false.
Proof.
  intro H. apply run_filters_no in H. destruct H as (k & q & I & X). exists k, q. split; [|exact X].
  apply (filters_registered p sp). apply In_dget; [apply String.eqb_eq| |exact I].
  apply (inv_keys _ (rc_after_inv p sp h)).
Qed.

Lemma registered_raise p sp h r ctx e : run_filters (rc_filters (rc_run h (rc_init p sp))) r ctx = Err e ->
  exists k q, registered h k q /\ q r ctx = Err e.
Proof.
  intro H. apply (C05_raise_lemma p sp h false). unfold rc_add, rc_after. rewrite H. reflexivity.
Qed.

(** ** C77: the exception reaches the caller *)
Lemma C77_caller_lemma {S} (E : env S) v depth info s f df dflt reRan imRan prec p sp h :
  let x := serial_context f df dflt reRan imRan prec in
  let ctx := toFilterContext x in
  let c := rc_run h (rc_init p sp) in
  let reports := ar_reports (argument_algorithm E v depth info s x) in
  (v = NewtonV -> forall k q r e, registered h k q -> q r ctx = Err e -> ~ is_RuntimeError e) ->
  forall before i r after e,
  reports = before ++ (i, r) :: after ->
  (forall j s, In (j, s) before -> filters_total h s ctx) ->
  (forall k q, registered h k q -> q r ctx = Ok true \/ q r ctx = Err e) ->
  (exists k q, registered h k q /\ q r ctx = Err e) ->
  search_into E v depth info s f df dflt reRan imRan prec c =
  (rc_run (h ++ map (fun a => RAdd (fst a) (snd a) ctx) before) (rc_init p sp),
   match e with KeyboardInterrupt => Ok tt | _ => Err e end).
Proof.
  cbv zeta. intros Q before i r after e HR HT HA HE.
  rewrite search_into_eq.
  2:{ intros Hv r' e' R. apply registered_raise in R. destruct R as (k & q & R1 & R2).
      exact (Q Hv k q r' e' R1 R2). }
  unfold calculateRoots. rewrite HR, feed_app, feed_total.
  2:{ intros [j r'] I. cbn [snd]. specialize (HT j r' I).
      destruct (run_filters _ r' _) as [b|e'] eqn:R; [eauto|].
      apply registered_raise in R. destruct R as (k & q & R1 & R2). destruct (HT k q R1). congruence. }
  cbn [feed].
  assert (RF : run_filters (rc_filters (rc_run h (rc_init p sp))) r (toFilterContext (serial_context f df dflt reRan imRan prec)) = Err e).
  { destruct (run_filters _ r _) as [[|]|e'] eqn:R.
    - exfalso. destruct HE as (k & q & H1 & H2).
      assert (A : accepted h r (toFilterContext (serial_context f df dflt reRan imRan prec))).
      { apply (accepts_iff p sp). exact R. }
      specialize (A k q H1). congruence.
    - exfalso. apply registered_no in R. destruct R as (k & q & R1 & R2). destruct (HA k q R1); congruence.
    - apply registered_raise in R. destruct R as (k & q & R1 & R2). destruct (HA k q R1); congruence. }
  unfold rc_add. rewrite adds_filters, RF. unfold rc_run. rewrite fold_left_app. fold rc_run.
  destruct e; reflexivity.
Qed.
