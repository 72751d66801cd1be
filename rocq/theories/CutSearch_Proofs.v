From Coq Require Import Reals Qreals Qminmax.
From Verif Require Import PyBase Rounding_Model Rounding_Proofs Poly_Model Container_Model Container_Spec Finder_Model Finder_Spec
  Refine_Model Refine_Spec Refine_Proofs Zeros_Spec Zeros_Proofs Cache_Model Cache_Spec Cache_Proofs
  Sum_Model Sum_Spec Sum_Proofs Sum_Proofs2 Sum_Proofs3 Sum_Proofs4 Sum_Proofs5 Sum_Proofs6 Arg_Spec
  EndToEnd_Model EndToEnd_Spec EndToEnd_Proofs Whole_Model Whole_Grid Whole_Inv Whole_Spec Whole_Proofs Whole_Proofs3 CutSearch_Model.
From Coq Require Import Lqa Lra.
Open Scope R_scope.

Lemma cut_cache_frame {A} j level order start (c c' : lcache A) l' :
  ~ (l' == level)%Q -> dget okey_eqb (l', 0%Z) c' = dget okey_eqb (l', 0%Z) c ->
  dget okey_eqb (l', 0%Z) (cut_cache j level order start c c') = dget okey_eqb (l', 0%Z) c.
Proof.
  intros N H.
  assert (K : forall o, okey_eqb (l', 0%Z) (level, o) = false).
  { intro o. unfold okey_eqb. cbn [fst snd]. assert (X : Qeq_bool l' level = false) by (apply Qeqb_false; exact N). rewrite X. reflexivity. }
  assert (D : forall v (c0 : lcache A), dget okey_eqb (l', 0%Z) (dset okey_eqb (level, order) v c0) = dget okey_eqb (l', 0%Z) c0).
  { intros v c0. rewrite (dget_dset okey_eqb okey_t okey_s), K. reflexivity. }
  unfold cut_cache. set (opened := match dget okey_eqb (level, order) c with None => _ | Some _ => c end).
  assert (O1 : dget okey_eqb (l', 0%Z) opened = dget okey_eqb (l', 0%Z) c).
  { unfold opened. destruct (dget okey_eqb (level, order) c); [reflexivity|apply D]. }
  destruct j as [|[|[|j]]]; [reflexivity|exact O1| |exact H].
  destruct (dget okey_eqb (level, order) c') as [d'|]; [|exact O1].
  destruct (dget okey_eqb (level, order) opened) as [d|]; [|exact O1].
  destruct (dget skey_eqb (start, StartSide) d') as [v|]; [|exact O1].
  rewrite D. exact O1.
Qed.

Lemma cut_line_frame j f delta mp n prec fuel order a b st h l :
  ~ on_level a b h l -> level_free st h l -> level_free (cut_line j f delta mp n prec fuel order a b st) h l.
Proof.
  intros N F. unfold level_free in *.
  pose proof (line_frame' f delta mp n prec fuel order a b st h l N) as X. unfold line_cache in X.
  unfold cut_line. destruct (sum_line f delta mp n prec fuel order a b st) as [st' [found p|e|]] eqn:R; try exact F.
  cbn [fst] in X.
  destruct (Qeq_bool (im a) (im b)) eqn:E1.
  - destruct h; cbn [horizontal vertical]; [|exact F].
    apply Qeq_bool_iff in E1. rewrite cut_cache_frame; [exact F| |exact X].
    intro C. apply N. cbn. split; [exact E1|symmetry; exact C].
  - destruct h; cbn [horizontal vertical]; [exact F|].
    assert (E2 : (re a == re b)%Q).
    { unfold sum_line, sumLine in R. rewrite E1 in R. destruct (Qeq_bool (re a) (re b)) eqn:E2; [apply Qeq_bool_iff, E2|discriminate]. }
    rewrite cut_cache_frame; [exact F| |exact X].
    intro C. apply N. cbn. split; [exact E2|symmetry; exact C].
Qed.

Section Frame.
  Context {LS : Type} (line : Z -> cplx -> cplx -> LS -> LS * list cplx * res cplx) (free : LS -> Prop).
  Variables (h : bool) (l : Q).
  Hypothesis line_keeps : forall order a b st, ~ on_level a b h l -> free st -> free (fst (fst (line order a b st))).
  Variables (debug : bool) (secant : cplx -> cplx -> res cplx) (newton : cplx -> res cplx)
    (polyroots : list cplx -> res (list cplx)) (has_df : bool) (prec : Z * Z) (progress : bool).
  Notation E := (cached_env line debug secant newton polyroots has_df prec progress).

  Lemma any_loop_frame order es : (forall e, In e es -> ~ on_level (fst e) (snd e) h l) -> forall phi s,
    free (snd s) -> free (snd (fst (fst (moment_loop line debug order es phi s)))).
  Proof.
    induction es as [|[a b] es IH]; intros HE phi [c st] F; [exact F|]. cbn [moment_loop snd] in *.
    specialize (IH (fun e He => HE e (or_intror He))).
    pose proof (HE (a, b) (or_introl eq_refl)) as NE. cbn [fst snd] in NE.
    cbn [fst]. destruct (ec_retrieve debug order a b c) as [c1 found] eqn:R.
    pose proof (line_keeps order a b st NE F) as FT.
    destruct (truthy found).
    - exact (IH _ (c1, st) F).
    - destruct (line order a b st) as [[st1 zs] [v|e]]; cbn [fst snd] in *; [|exact FT].
      match goal with |- context [moment_loop line debug order es ?p ?s'] => pose proof (IH p s' FT) as X;
        destruct (moment_loop line debug order es p s') as [[s2 zs2] r2] end. exact X.
  Qed.
  Lemma any_moment_frame order q s : ~ side_level q h l -> free (snd s) ->
    free (snd (fst (fst (cached_moment line debug order q s)))).
  Proof. intros N. apply any_loop_frame. intros e He. exact (edges_level q h l e N He). Qed.

  Variable x : rctx.
  Notation P := (cx_precision x).
  Hypothesis away : forall q, cell_of P (rect_of x) q -> ~ side_level q h l.
  Notation Ex := (env_for E x).
  Notation keeps m := (forall s, free (snd s) -> free (snd (fst (fst (m s))))).

  Lemma any_keeps_bind {A B} (m : @M (ecache * LS) A) (k : A -> @M (ecache * LS) B) :
    keeps m -> (forall a, keeps (k a)) -> keeps (mbind m k).
  Proof.
    intros H1 H2 s F. specialize (H1 s F). unfold mbind. destruct (m s) as [[s1 l1] [a|e|]]; cbn [fst snd] in *; try exact H1.
    specialize (H2 a s1 H1). destruct (k a s1) as [[s2 l2] o]. exact H2.
  Qed.
  Lemma any_keeps_refined q : cell_of P (rect_of x) q -> keeps (calculateRefinedMoment Ex q).
  Proof.
    intros HC. unfold calculateRefinedMoment. apply any_keeps_bind; [|intros a s F; exact F].
    intros s F. unfold calcMoment. pose proof (any_moment_frame 0 q s (away q HC) F) as X.
    cbn [e_est env_for cached_env]. destruct (cached_moment line debug 0 q s) as [[s' zs] [m|e]]; exact X.
  Qed.
  Lemma any_keeps_decide depth : forall q phi, cell_of P (rect_of x) q -> keeps (decideRefinement Ex Simple depth q phi).
  Proof.
    induction depth as [|depth IH]; intros q phi HC s F; [exact F|]. cbn [decideRefinement]. revert s F. unfold decide_simple.
    destruct (Qltb phi TWO_PI); [intros s F; exact F|].
    destruct (Qltb (deltaRe q) (epsRe Ex) && Qltb (deltaIm q) (epsIm Ex)) eqn:ST; [intros s F; exact F|].
    assert (NS : ~ sub_tolerance P q).
    { intros [S1 S2]. apply andb_false_iff in ST. unfold deltaRe, deltaIm, epsRe, epsIm in ST. cbn [e_precision env_for] in ST.
      destruct ST as [ST|ST]; apply Qltb_false in ST; Lqa.lra. }
    assert (RM : forall a b, keeps (cacheRemove Ex a b)) by (intros a b s F; exact F).
    destruct (Qltb (deltaIm q / epsIm Ex) (deltaRe q / epsRe Ex)) eqn:W.
    - apply Qltb_true in W. cbv zeta.
      assert (W' : wider P q) by exact W.
      assert (C1 : cell_of P (rect_of x) (mkRect (x1 q) ((x1 q + x2 q) / 2) (y1 q) (y2 q))) by (apply cell_left; assumption).
      assert (C2 : cell_of P (rect_of x) (mkRect ((x1 q + x2 q) / 2) (x2 q) (y1 q) (y2 q))) by (apply cell_right; assumption).
      apply any_keeps_bind; [apply any_keeps_refined, C1|]. intros p1. apply any_keeps_bind; [apply IH, C1|]. intros _.
      apply any_keeps_bind; [apply RM|]. intros _. apply any_keeps_bind; [apply any_keeps_refined, C2|]. intros p2.
      apply any_keeps_bind; [apply IH, C2|]. intros _. apply RM.
    - apply Qltb_false in W. cbv zeta.
      assert (NW : ~ wider P q) by (unfold wider; intro C; exact (Qlt_not_le _ _ C W)).
      assert (C1 : cell_of P (rect_of x) (mkRect (x1 q) (x2 q) (y1 q) ((y1 q + y2 q) / 2))) by (apply cell_bottom; assumption).
      assert (C2 : cell_of P (rect_of x) (mkRect (x1 q) (x2 q) ((y1 q + y2 q) / 2) (y2 q))) by (apply cell_top; assumption).
      apply any_keeps_bind; [apply any_keeps_refined, C1|]. intros p1. apply any_keeps_bind; [apply IH, C1|]. intros _.
      apply any_keeps_bind; [apply RM|]. intros _. apply any_keeps_bind; [apply any_keeps_refined, C2|]. intros p2.
      apply any_keeps_bind; [apply IH, C2|]. intros _. apply RM.
  Qed.
  Lemma any_search_frame depth s : free (snd s) ->
    free (snd (fst (fst (calcRoots Ex Simple depth (rect_of x) s)))).
  Proof.
    intro F. unfold calcRoots. set (s0 := if e_dirty Ex s then e_reset Ex s else s).
    assert (F0 : free (snd s0)) by (unfold s0; cbn [e_dirty e_reset env_for cached_env]; destruct (ec_dirty (fst s)); exact F).
    cut (keeps (mbind (calcMoment Ex 0 (rect_of x)) (fun m => decideRefinement Ex Simple depth (rect_of x) (re m))));
      [intro K; exact (K s0 F0)|]. clear s0 F0.
    apply any_keeps_bind.
    - intros s0 F0. unfold calcMoment. pose proof (any_moment_frame 0 (rect_of x) s0 (away _ (cell_whole _ _)) F0) as X.
      cbn [e_est env_for cached_env]. destruct (cached_moment line debug 0 (rect_of x) s0) as [[s' zs] [m|e]]; exact X.
    - intro m. apply any_keeps_decide. constructor.
  Qed.
End Frame.

Section Reuse.
  Variables (g : cplx -> cR) (turns : R -> Q) (delta : R) (mp : Q) (n : nat)
    (eprec : Z * Z) (fuel : nat) (debug : bool) (secant : cplx -> cplx -> res cplx) (newton : cplx -> res cplx)
    (polyroots : list cplx -> res (list cplx)) (has_df progress : bool).
  Notation E := (sum_env turns g delta mp n eprec fuel debug secant newton polyroots has_df progress).

  Lemma interrupted_frame x h l depth j k s :
    (forall q, cell_of (cx_precision x) (rect_of x) q -> ~ side_level q h l) ->
    level_free (snd s) h l ->
    level_free (snd (leaves_interrupted turns j k g delta mp n eprec fuel debug secant newton polyroots has_df progress depth x s)) h l.
  Proof.
    intros A F. unfold leaves_interrupted.
    pose proof (any_search_frame (interrupted_line turns j g delta mp n eprec fuel) (fun st => level_free (snd st) h l) h l) as X.
    assert (K : forall order a b st, ~ on_level a b h l -> level_free (snd st) h l ->
      level_free (snd (fst (fst (interrupted_line turns j g delta mp n eprec fuel order a b st)))) h l).
    { intros order a b [m st] N F'. unfold interrupted_line. cbn [fst snd] in *. destruct m as [|m]; cbn [fst snd].
      - apply cut_line_frame; assumption.
      - pose proof (turn_frame g turns delta mp n eprec fuel order a b st h l N F') as Y.
        destruct (turn_line turns g delta mp n eprec fuel order a b st) as [[st' found] r]. exact Y. }
    specialize (X K debug secant newton polyroots has_df eprec progress x A depth (fst s, (k, snd s)) F).
    destruct (calcRoots _ _ _ _ _) as [[[c [m st]] log] o]. exact X.
  Qed.

  Lemma interrupted_untouched h P r :
    (forall x d c, In (x, d, c) h -> no_common_level (cx_precision x) (rect_of x) P r) ->
    untouched (snd (after_interrupted turns g delta mp n eprec fuel debug secant newton polyroots has_df progress h new_estimator)) P r.
  Proof.
    assert (G : forall s, untouched (snd s) P r ->
      (forall x d c, In (x, d, c) h -> no_common_level (cx_precision x) (rect_of x) P r) ->
      untouched (snd (after_interrupted turns g delta mp n eprec fuel debug secant newton polyroots has_df progress h s)) P r).
    { induction h as [|[[x d] c] h' IH]; intros s HU HN; [exact HU|]. cbn [after_interrupted fold_left fst snd].
      apply IH; [|intros x' d' c' H; apply (HN x' d' c'); right; exact H].
      intros q Hq. pose proof (HN x d c (or_introl eq_refl)) as N. destruct (HU q Hq) as (U1 & U2 & U3 & U4).
      assert (FR : forall hh l, (forall q', cell_of (cx_precision x) (rect_of x) q' -> ~ side_level q' hh l) ->
        level_free (snd s) hh l -> level_free (snd (match c with
          | None => leaves E d x s
          | Some (k, j) => leaves_interrupted turns j k g delta mp n eprec fuel debug secant newton polyroots has_df progress d x s end)) hh l).
      { intros hh l A F. destruct c as [[k j]|].
        - apply interrupted_frame; assumption.
        - exact (leaves_frame g turns delta mp n eprec fuel debug secant newton polyroots has_df progress x hh l A d s F). }
      repeat split; apply FR; try assumption; intros q' Hq'; pose proof (N q' q Hq' Hq) as X; unfold side_level; tauto. }
    intro HN. apply (G new_estimator); [apply fresh_untouched|exact HN].
  Qed.
End Reuse.

Lemma interrupted_reuse g zeros turns eps delta mp n eprec fuel debug secant newton polyroots has_df progress
  (H1 : 0 < delta) (H2 : (2 <= n)%nat) (H3 : (100 * n + 3 <= fuel)%nat) (H4 : faithful turns eps)
  h depth info f df dflt reRan imRan prec p sp iter a b :
  let E := sum_env turns g delta mp n eprec fuel debug secant newton polyroots has_df progress in
  let P := search_precision dflt prec in
  let r := rect_of (serial_context f df dflt reRan imRan prec) in
  let s := after_interrupted turns g delta mp n eprec fuel debug secant newton polyroots has_df progress h new_estimator in
  let out := calculateRoots f df dflt (argument_algorithm E Simple depth info s) reRan imRan prec (rc_init p sp) in
  (forall x d c, In (x, d, c) h -> no_common_level (cx_precision x) (rect_of x) P r) ->
  iteration_order iter -> resolved g zeros n eps P r -> dense n P r ->
  halvings (Qabs (fst reRan - snd reRan) + 3 * pow10 (- fst P)) (fst P) a ->
  halvings (Qabs (fst imRan - snd imRan) + 7 * pow10 (- snd P)) (snd P) b ->
  (a + b < depth)%nat ->
  snd out = Ok tt /\
  let pairs := reported_pairs iter (fst out) in
  all_found 1 P zeros reRan imRan pairs /\
  all_genuine 1 P P zeros reRan imRan pairs /\
  (separated 1 P zeros -> orders_right 1 P P zeros reRan imRan pairs) /\
  (separated 2 P zeros -> exactly_once 1 P zeros reRan imRan pairs).
Proof.
  intros E P r s out HN HI HR.
  exact (complete_lemma g zeros turns eps delta mp n eprec fuel debug secant newton polyroots has_df progress H1 H2 H3 H4
    s depth info f df dflt reRan imRan prec p sp iter a b HI
    (interrupted_untouched g turns delta mp n eprec fuel debug secant newton polyroots has_df progress h P r HN) HR).
Qed.
