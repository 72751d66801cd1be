From Coq Require Import Reals Qreals.
From Verif Require Import PyBase Poly_Model Refine_Model Refine_Spec Cache_Model Sum_Model Sum_Spec Quad_Model Whole_Model Qsearch_Model
  Raise_Model Raise_Spec Raise_Proofs.
Open Scope Z_scope.

Lemma moment_cut own (LS : Type) (line line' : Z -> cplx -> cplx -> LS -> LS * list cplx * res cplx) debug k :
  cut_line own line line' ->
  forall es phi st,
    moment_loop line' debug k es phi st = moment_loop line debug k es phi st \/
    exists st1 found e, moment_loop line' debug k es phi st = (st1, found, Err e) /\ own e /\
      forall st2 all v, moment_loop line debug k es phi st = (st2, all, Ok v) -> beginning found all.
Proof.
  intros C. induction es as [|[a b] es IH]; intros phi [c ls]; cbn [moment_loop fst snd]; [left; reflexivity|].
  destruct (ec_retrieve debug k a b c) as [c1 entry]. destruct (truthy entry); [apply IH|].
  destruct (C k a b ls) as [H|(found & e & H & O & B)]; rewrite H.
  - destruct (line k a b ls) as [[ls1 zs] [v|e]]; [|left; reflexivity].
    set (c2 := ec_store k b a (copp v) (ec_store k a b v c1)).
    destruct (IH (cadd phi v) (c2, ls1)) as [H2|(st1 & found & e & H2 & O & B)]; rewrite H2.
    + left. reflexivity.
    + right. exists st1, (zs ++ found), e. split; [reflexivity|]. split; [exact O|]. intros st2 all w.
      destruct (moment_loop line debug k es (cadd phi v) (c2, ls1)) as [[st3 all'] [x|x]]; [|discriminate].
      intro U. injection U as _ <- _. apply beginning_app, (B st3 all' x). reflexivity.
  - right. exists (c1, ls), found, e. split; [reflexivity|]. split; [exact O|]. intros st2 all w.
    destruct (line k a b ls) as [[ls1 zs] [v|x]]; [|discriminate].
    destruct (moment_loop line debug k es _ _) as [[st3 all'] [x|x]]; [|discriminate].
    intro U. injection U as _ <- _. apply beginning_more, (B ls1 zs v). reflexivity.
Qed.

Lemma roots_of_app l1 l2 : roots_of (l1 ++ l2) = roots_of l1 ++ roots_of l2.
Proof. unfold roots_of. apply flat_map_app. Qed.

Section Search.
  Variable own : exn -> Prop.
  Context {S : Type} (E E' : env S).
  Hypothesis same_rm : e_rm E' = e_rm E.
  Hypothesis same_dirty : e_dirty E' = e_dirty E.
  Hypothesis same_reset : e_reset E' = e_reset E.
  Hypothesis same_roots : e_polyroots E' = e_polyroots E.
  Hypothesis same_df : e_has_df E' = e_has_df E.
  Hypothesis same_prec : e_precision E' = e_precision E.
  Hypothesis same_prog : e_progress E' = e_progress E.
  Definition loud (e : exn) : Prop := own e /\ ~ is_RuntimeError e.
  Hypothesis cut_secant : forall a b, answers_or_raises loud (e_secant E' a b) (e_secant E a b).
  Hypothesis cut_newton : forall a, answers_or_raises loud (e_newton E' a) (e_newton E a).
  Hypothesis cut_est : forall k q s,
    e_est E' k q s = e_est E k q s \/
    exists s1 found e, e_est E' k q s = (s1, found, Err e) /\ own e /\
      forall s2 all v, e_est E k q s = (s2, all, Ok v) -> beginning found all.

  Definition cut_at {A} (y x : S * list event * outcome A) : Prop :=
    y = x \/ exists s1 l1 e, y = (s1, l1, Raised e) /\ own e /\ beginning (roots_of l1) (roots_of (snd (fst x))).
  Definition cut {A} (m' m : @M S A) : Prop := forall s s2 l a, m s = (s2, l, Done a) -> cut_at (m' s) (m s).

  Lemma cut_refl {A} (m : @M S A) : cut m m.
  Proof. intros s s2 l a _. left. reflexivity. Qed.

  Lemma cut_bind {A B} (m m' : @M S A) (k k' : A -> @M S B) :
    cut m' m -> (forall a, cut (k' a) (k a)) -> cut (mbind m' k') (mbind m k).
  Proof.
    intros Hm Hk s s2 l b. unfold mbind. specialize (Hm s).
    destruct (m s) as [[s1 l1] [a|e|]]; try discriminate.
    destruct (k a s1) as [[s3 l3] [b'|e|]] eqn:K; try discriminate. intros _.
    destruct (Hm s1 l1 a eq_refl) as [H|(t & l' & e & H & O & B')]; rewrite H.
    - destruct (Hk a s1 s3 l3 b' K) as [H2|(t & l' & e & H2 & O & B')]; rewrite H2.
      + left. rewrite K. reflexivity.
      + right. exists t, (l1 ++ l'), e. split; [reflexivity|]. split; [exact O|].
        rewrite K in B'. cbn [fst snd] in *. rewrite !roots_of_app. apply beginning_app, B'.
    - right. exists t, l', e. split; [reflexivity|]. split; [exact O|].
      cbn [fst snd] in *. rewrite roots_of_app. apply beginning_more, B'.
  Qed.
  Lemma cut_seq {A B} (m m' : @M S A) (k k' : @M S B) : cut m' m -> cut k' k -> cut (mseq m' k') (mseq m k).
  Proof. intros H K. apply cut_bind; auto. Qed.

  Lemma roots_zeros zs : roots_of (map (fun z => EvRoot (z, 0)) zs) = map (fun z => (z, 0)) zs.
  Proof. induction zs as [|z zs IH]; [reflexivity|]. cbn [map roots_of flat_map app] in *. f_equal. apply IH. Qed.

  Lemma cut_moment k q : cut (calcMoment E' k q) (calcMoment E k q).
  Proof.
    intros s s2 l a. unfold calcMoment. destruct (cut_est k q s) as [H|(s1 & found & e & H & O & B)]; rewrite H; [left; reflexivity|].
    destruct (e_est E k q s) as [[s3 all] [v|x]]; [|discriminate]. intro U. injection U as _ _ _.
    right. exists s1. eexists. exists e. split; [reflexivity|]. split; [exact O|]. cbn [fst snd].
    rewrite !roots_of_app, !roots_zeros. cbn [roots_of flat_map]. rewrite !app_nil_r. apply beginning_map, (B s3 all v). reflexivity.
  Qed.

  Lemma cut_refined q : cut (calculateRefinedMoment E' q) (calculateRefinedMoment E q).
  Proof. unfold calculateRefinedMoment. apply cut_bind; [apply cut_moment|]. intro. apply cut_refl. Qed.
  Lemma cut_rm a b : cut (cacheRemove E' a b) (cacheRemove E a b).
  Proof. unfold cacheRemove. rewrite same_rm. apply cut_refl. Qed.
  Lemma cut_advance a : cut (advance E' a) (advance E a).
  Proof. unfold advance. rewrite same_prog. apply cut_refl. Qed.
  Lemma cut_getRoot q phi : cut (getRootFromRectangle E' q phi) (getRootFromRectangle E q phi).
  Proof. unfold getRootFromRectangle. apply cut_seq; [apply cut_refl|apply cut_advance]. Qed.

  Lemma cut_simple d d' q phi : (forall q' phi', cut (d' q' phi') (d q' phi')) ->
    cut (decide_simple E' d' q phi) (decide_simple E d q phi).
  Proof.
    intros Hd. unfold decide_simple, epsRe, epsIm. rewrite same_prec.
    destruct (Qltb phi TWO_PI); [apply cut_seq; [apply cut_refl|apply cut_advance]|].
    destruct (_ && _); [apply cut_getRoot|].
    destruct (Qltb _ _); cbv zeta.
    all: apply cut_bind; [apply cut_refined|intro p1].
    all: apply cut_seq; [apply Hd|]; apply cut_seq; [apply cut_rm|].
    all: apply cut_bind; [apply cut_refined|intro p2].
    all: apply cut_seq; [apply Hd|apply cut_rm].
  Qed.

  Lemma loud_not_caught e : loud e -> catches_RuntimeError e = false.
  Proof. intros [_ H]. unfold is_RuntimeError in H. destruct e; try reflexivity; exfalso; apply H; auto. Qed.

  Lemma cut_newton_branch q phi : cut (newton_branch E' q phi) (newton_branch E q phi).
  Proof.
    intros s s2 l u. unfold newton_branch, advance. rewrite same_df, same_prog.
    match goal with |- context [e_secant E' ?a ?b] => destruct (cut_secant a b) as [Hs|(e & Hs & L)]; rewrite Hs end.
    - destruct (e_secant E _ _) as [z|x]; [|left; reflexivity].
      destruct (e_has_df E); [|left; reflexivity].
      match goal with |- context [e_newton E' ?a] => destruct (cut_newton a) as [Hn|(e & Hn & L)]; rewrite Hn end; [left; reflexivity|].
      intros _. right. pose proof (loud_not_caught e L) as C. rewrite C.
      assert (Z0 : forall b, roots_of (if e_progress E then [EvAdvance b] else []) = []) by (intro; destruct (e_progress E); reflexivity).
      set (bar := if e_progress E then [EvAdvance (area q)] else []).
      assert (Z1 : roots_of bar = []) by apply Z0. clearbody bar.
      exists s, ([EvNewton q phi; EvRoot (z, 1)] ++ bar ++ []), e.
      split; [reflexivity|]. split; [exact (proj1 L)|].
      destruct (e_newton E _) as [w|x].
      + change (beginning (roots_of ([EvNewton q phi; EvRoot (z, 1)] ++ bar ++ []))
          (roots_of ([EvNewton q phi; EvRoot (z, 1); EvRoot (w, 1)] ++ bar ++ []))).
        rewrite !roots_of_app, Z1. exists [(w, 1)]. reflexivity.
      + exists []. rewrite app_nil_r. destruct (catches_RuntimeError x); reflexivity.
    - intros _. right. pose proof (loud_not_caught e L) as C. rewrite C.
      assert (Z0 : forall b, roots_of (if e_progress E then [EvAdvance b] else []) = []) by (intro; destruct (e_progress E); reflexivity).
      set (bar := if e_progress E then [EvAdvance (area q)] else []).
      assert (Z1 : roots_of bar = []) by apply Z0. clearbody bar.
      exists s, ([EvNewton q phi] ++ bar ++ []), e.
      split; [reflexivity|]. split; [exact (proj1 L)|].
      rewrite !roots_of_app, Z1. apply beginning_nil.
  Qed.

  Lemma cut_moments n : forall k q, cut (moments_from E' k n q) (moments_from E k n q).
  Proof.
    induction n as [|n IH]; intros k q; cbn [moments_from]; [apply cut_refl|].
    apply cut_bind; [apply cut_moment|intro m]. apply cut_bind; [apply IH|intro ms]. apply cut_refl.
  Qed.

  Lemma cut_decide v n : forall q phi, cut (decideRefinement E' v n q phi) (decideRefinement E v n q phi).
  Proof.
    induction n as [|n IH]; intros q phi; cbn [decideRefinement]; [apply cut_refl|].
    destruct v.
    - apply cut_simple; auto.
    - unfold decide_newton, epsRe, epsIm. rewrite same_prec.
      destruct (_ && _); [apply cut_getRoot|].
      destruct (_ && _); [apply cut_newton_branch|apply cut_simple; auto].
    - unfold decide_poly, epsRe, epsIm. rewrite same_prec, same_df, same_roots.
      destruct (negb _); [apply cut_refl|].
      destruct (_ && _); [apply cut_getRoot|].
      destruct (_ && _); [|apply cut_simple; auto].
      apply cut_bind; [apply cut_moments|]. intro ms.
      destruct (e_polyroots E _); [|apply cut_refl].
      apply cut_seq; [apply cut_refl|apply cut_advance].
  Qed.

  Lemma cut_calcRoots v n r : cut (calcRoots E' v n r) (calcRoots E v n r).
  Proof.
    intros s s2 l a. unfold calcRoots. rewrite same_dirty, same_reset.
    apply (cut_bind (calcMoment E 0 r) (calcMoment E' 0 r) (fun m => decideRefinement E v n r (re m))).
    - apply cut_moment.
    - intro m. apply cut_decide.
  Qed.
End Search.

Lemma cached_cut own (LS : Type) (line line' : Z -> cplx -> cplx -> LS -> LS * list cplx * res cplx)
    debug secant secant' newton newton' polyroots has_df precision progress v depth r :
  cut_line own line line' ->
  (forall a b, answers_or_raises (loud own) (secant' a b) (secant a b)) ->
  (forall a, answers_or_raises (loud own) (newton' a) (newton a)) ->
  cut own (calcRoots (cached_env line' debug secant' newton' polyroots has_df precision progress) v depth r)
    (calcRoots (cached_env line debug secant newton polyroots has_df precision progress) v depth r).
Proof.
  intros C Hs Hn. apply cut_calcRoots; try reflexivity; try assumption.
  intros k q s. cbn [e_est cached_env]. apply moment_cut, C.
Qed.
