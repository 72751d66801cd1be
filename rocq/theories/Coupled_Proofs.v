(** * Listing the reports first and storing them as they come give the same search *)
From Verif Require Import PyBase Rounding_Model Container_Model Container_Spec Finder_Model Finder_Spec Finder_Proofs
  Poly_Model Refine_Model Refine_Spec Refine_Proofs2 EndToEnd_Model Coupled_Model.
Open Scope Z_scope.

Section Couple.
  Context {S : Type}.
  Variable E : env S.
  Variable fc : fctx.
  Variable info : root -> bool.
  Variable fl : list (string * rootFilter).

  Definition tagged (l : list root) : list (bool * root) := map (fun r => (info r, r)) l.
  Definition feedl (l : list event) (c : rcont) : rcont * res unit := feed fc (tagged (roots_of l)) c.

  Definition couples {A} (m : @M S A) (m' : @CM S A) : Prop := forall s c, rc_filters c = fl ->
    let '(s', l, o) := m s in
    match feedl l c with
    | (c', Ok _) => exists l', m' (s, c) = ((s', c'), l', o)
    | (c', Err e) => exists s'' l', m' (s, c) = ((s'', c'), l', Raised e)
    end.

  Lemma feedl_app l1 l2 c : feedl (l1 ++ l2) c =
    match feedl l1 c with (c', Ok _) => feedl l2 c' | (c', Err e) => (c', Err e) end.
  Proof. unfold feedl, tagged. rewrite roots_app, map_app. apply feed_app. Qed.

  Lemma feed_filters l c : rc_filters (fst (feed fc l c)) = rc_filters c.
  Proof. destruct (feed_run fc l c) as (l1 & l2 & _ & H & _). rewrite H. apply adds_filters. Qed.

  Lemma couples_bind {A B} (m : @M S A) m' (k : A -> @M S B) k' :
    couples m m' -> (forall a, couples (k a) (k' a)) -> couples (mbind m k) (mbind m' k').
  Proof.
    intros H K s c F. specialize (H s c F). unfold mbind at 1.
    destruct (m s) as [[s1 l1] o1]. destruct (feedl l1 c) as [c1 [u|e]] eqn:E1.
    - assert (F1 : rc_filters c1 = fl).
      { rewrite <- F. change c1 with (fst (c1, Ok u)). rewrite <- E1. apply feed_filters. }
      destruct H as (l1' & H). destruct o1 as [a|e|].
      + specialize (K a s1 c1 F1). destruct (k a s1) as [[s2 l2] o2]. rewrite feedl_app, E1.
        unfold mbind. rewrite H. destruct (feedl l2 c1) as [c2 [u2|e2]].
        * destruct K as (l2' & K). rewrite K. eauto.
        * destruct K as (s'' & l' & K). rewrite K. eauto.
      + rewrite E1. unfold mbind. rewrite H. eauto.
      + rewrite E1. unfold mbind. rewrite H. eauto.
    - destruct H as (s'' & l' & H). destruct o1 as [a|e'|].
      + destruct (k a s1) as [[s2 l2] o2]. rewrite feedl_app, E1. unfold mbind. rewrite H. eauto.
      + rewrite E1. unfold mbind. rewrite H. eauto.
      + rewrite E1. unfold mbind. rewrite H. eauto.
  Qed.

  Lemma couples_seq {A B} (m : @M S A) m' (k : @M S B) k' :
    couples m m' -> couples k k' -> couples (mseq m k) (mseq m' k').
  Proof. intros H K. apply couples_bind; auto. Qed.

  (** Nothing reported: nothing can happen to the container. *)
  Lemma couples_quiet {A} (m : @M S A) (m' : @CM S A) :
    (forall s c, let '(s', l, o) := m s in roots_of l = [] /\ m' (s, c) = ((s', c), l, o)) -> couples m m'.
  Proof.
    intros H s c _. specialize (H s c). destruct (m s) as [[s' l] o]. destruct H as [R H].
    unfold feedl. rewrite R. exists l. exact H.
  Qed.

  Lemma couples_ret {A} (a : A) : couples (ret a) (ret a).
  Proof. apply couples_quiet. intros s c. split; reflexivity. Qed.
  Lemma couples_raise {A} e : couples (@raise S A e) (raise e).
  Proof. apply couples_quiet. intros s c. split; reflexivity. Qed.
  Lemma couples_fuel {A} : couples (@out_of_fuel S A) out_of_fuel.
  Proof. apply couples_quiet. intros s c. split; reflexivity. Qed.
  Lemma couples_quiet_emit l : roots_of l = [] -> couples (emit l) (emit l).
  Proof. intro R. apply couples_quiet. intros s c. cbn. auto. Qed.
  Lemma couples_advance a : couples (advance E a) (c_advance E a).
  Proof. unfold advance, c_advance. apply couples_quiet_emit. destruct (e_progress E); reflexivity. Qed.
  Lemma couples_remove a b : couples (cacheRemove E a b) (c_cacheRemove E a b).
  Proof. apply couples_quiet. intros s c. cbn. auto. Qed.

  Lemma couples_add r : couples (emit [EvRoot r]) (addRoot fc info r).
  Proof.
    intros s c _. cbn [emit]. unfold feedl. cbn [roots_of flat_map app tagged map feed].
    unfold emit, addRoot. cbn [fst snd].
    destruct (rc_add (info r) r fc c) as [c' [u|e]]; [eauto|eauto].
  Qed.

  Lemma addRoots_spec rs s c :
    match feed fc (tagged rs) c with
    | (c', Ok _) => addRoots fc info rs (s, c) = ((s, c'), map EvRoot rs, @Done unit tt)
    | (c', Err e) => exists l', @addRoots S fc info rs (s, c) = ((s, c'), l', Raised e)
    end.
  Proof.
    revert c. induction rs as [|r rs IH]; intro c; [reflexivity|].
    cbn [tagged map feed addRoots]. unfold mseq, mbind, addRoot. cbn [fst snd].
    destruct (rc_add (info r) r fc c) as [c' [u|e]] eqn:A; [|eauto].
    specialize (IH c'). unfold tagged in IH. destruct (feed fc _ c') as [c2 [u2|e2]].
    - rewrite IH. reflexivity.
    - destruct IH as (l' & IH). rewrite IH. eauto.
  Qed.

  Lemma couples_adds rs : couples (emit (map EvRoot rs)) (addRoots fc info rs).
  Proof.
    intros s c _. unfold emit, feedl. rewrite roots_of_map. pose proof (addRoots_spec rs s c) as H.
    destruct (feed fc (tagged rs) c) as [c' [u|e]]; [eauto|].
    destruct H as (l' & H). eauto.
  Qed.

  Lemma couples_ext {A} (m n : @M S A) m' : (forall s, m s = n s) -> couples n m' -> couples m m'.
  Proof. intros H K s c F. rewrite H. apply K. exact F. Qed.

  Lemma couples_moment k r : couples (calcMoment E k r) (c_calcMoment E fc info k r).
  Proof.
    intros s c F. unfold calcMoment, c_calcMoment. cbn [fst snd].
    destruct (e_est E k r s) as [[s' zs] v].
    set (rs := map (fun z => (z, 0)) zs).
    assert (X : map (fun z => EvRoot (z, 0)) zs = map EvRoot rs) by (unfold rs; rewrite map_map; reflexivity).
    rewrite X.
    pose proof (couples_seq (emit (map EvRoot rs)) (addRoots fc info rs)
      (mseq (emit [EvMoment k r v]) (match v with Ok m => ret m | Err e => raise e end))
      (mseq (emit [EvMoment k r v]) (match v with Ok m => ret m | Err e => raise e end))
      (couples_adds rs)) as H.
    assert (K : couples (mseq (emit [EvMoment k r v]) (match v with Ok m => ret m | Err e => raise e end))
                        (mseq (emit [EvMoment k r v]) (match v with Ok m => ret m | Err e => raise e end))).
    { apply couples_seq; [apply couples_quiet_emit; reflexivity|].
      destruct v; [apply couples_ret|apply couples_raise]. }
    specialize (H K s' c F). clear K.
    unfold mseq at 1 in H. unfold mbind at 1 in H. cbn [emit] in H. unfold emit at 1 in H.
    destruct v as [m|e]; cbn in H; exact H.
  Qed.

  Lemma couples_refined r : couples (calculateRefinedMoment E r) (c_calculateRefinedMoment E fc info r).
  Proof. apply couples_bind; [apply couples_moment|intro; apply couples_ret]. Qed.

  Lemma couples_report r phi : couples (getRootFromRectangle E r phi) (c_getRootFromRectangle E fc info r phi).
  Proof.
    unfold getRootFromRectangle, c_getRootFromRectangle.
    eapply couples_ext with (n := mseq (emit [EvReport r phi])
      (mseq (emit [EvRoot (center r, round_half_even phi)]) (advance E (deltaRe r * (0 - 0))%Q))).
    { intro s. reflexivity. }
    apply couples_seq; [apply couples_quiet_emit; reflexivity|].
    apply couples_seq; [apply couples_add|apply couples_advance].
  Qed.

  Lemma couples_simple self self' r phi :
    (forall q t, couples (self q t) (self' q t)) ->
    couples (decide_simple E self r phi) (c_decide_simple E fc info self' r phi).
  Proof.
    intro H. unfold decide_simple, c_decide_simple.
    destruct (Qltb phi TWO_PI).
    { apply couples_seq; [apply couples_quiet_emit; reflexivity|apply couples_advance]. }
    destruct (_ && _); [apply couples_report|].
    destruct (Qltb (deltaIm r / epsIm E) (deltaRe r / epsRe E)); cbv zeta;
      (apply couples_bind; [apply couples_refined|intro]; apply couples_seq; [apply H|];
       apply couples_seq; [apply couples_remove|]; apply couples_bind; [apply couples_refined|intro];
       apply couples_seq; [apply H|apply couples_remove]).
  Qed.

  Lemma couples_moments r n : forall k, couples (moments_from E k n r) (c_moments_from E fc info k n r).
  Proof.
    induction n as [|n IH]; intro k; [apply couples_ret|].
    apply couples_bind; [apply couples_moment|intro m]. apply couples_bind; [apply IH|intro; apply couples_ret].
  Qed.

  Lemma couples_poly self self' r phi :
    (forall q t, couples (self q t) (self' q t)) ->
    couples (decide_poly E self r phi) (c_decide_poly E fc info self' r phi).
  Proof.
    intro H. unfold decide_poly, c_decide_poly.
    destruct (negb (e_has_df E)); [apply couples_raise|].
    destruct (_ && _ && _); [apply couples_report|].
    destruct (_ && _); [|apply couples_simple; exact H].
    cbv zeta. apply couples_bind; [apply couples_moments|intro ms].
    destruct (e_polyroots E (coefficients_cplx ms)) as [roots|e]; unfold lift.
    - eapply couples_ext with (n := mbind (ret roots) (fun roots => mseq (emit [EvPoly r phi])
        (mseq (emit (map EvRoot (group_roots (e_precision E) roots))) (advance E (area r))))).
      { intro s. reflexivity. }
      apply couples_bind; [apply couples_ret|intro rs].
      apply couples_seq; [apply couples_quiet_emit; reflexivity|].
      apply couples_seq; [apply couples_adds|apply couples_advance].
    - eapply couples_ext with (n := mbind (raise e) (fun roots : list cplx => ret tt)).
      { intro s. reflexivity. }
      intros s c F. cbn. eauto.
  Qed.

  (** The try statement.  [E'] has the solvers of the list model, [E] the real ones. *)
  Lemma add_cases r c : rc_filters c = fl ->
    match run_filters fl r fc with
    | Err e => rc_add (info r) r fc c = (c, Err e)
    | Ok _ => exists c', rc_add (info r) r fc c = (c', Ok tt) /\ rc_filters c' = fl
    end.
  Proof.
    intros F. unfold rc_add. rewrite F. destruct (run_filters fl r fc) as [[|]|e'].
    - cbv zeta. destruct (_ && _); eexists; (split; [reflexivity|]); destruct (negb _); exact F.
    - eauto.
    - reflexivity.
  Qed.

  Definition censor (v : res cplx) : res cplx :=
    match v with
    | Ok z => match run_filters fl (z, 1) fc with
              | Err e => if catches_RuntimeError e then Err RuntimeError else Ok z
              | Ok _ => Ok z
              end
    | Err e => Err e
    end.

  Lemma couples_newton_branch E' r phi :
    (forall a b, e_secant E' a b = censor (e_secant E a b)) ->
    (forall a, e_newton E' a = censor (e_newton E a)) ->
    e_has_df E' = e_has_df E -> e_progress E' = e_progress E ->
    couples (newton_branch E' r phi) (c_newton_branch E fc info r phi).
  Proof.
    intros HS HN HD HP s c F. unfold newton_branch, c_newton_branch, try_body. cbv zeta.
    rewrite HS, HN, HD. set (sec := e_secant E _ _). set (new := e_newton E _).
    set (tail := if e_progress E then [EvAdvance (area r)] else []).
    assert (AD : forall l c', feedl (l ++ tail) c' = feedl l c').
    { intros l c'. rewrite feedl_app. destruct (feedl l c') as [c2 [[]|e]]; [|reflexivity].
      unfold feedl, tail. destruct (e_progress E); reflexivity. }
    assert (AD1 : forall a c', feedl (a :: tail) c' = feedl [a] c') by (intros a c'; apply (AD [a])).
    assert (AD2 : forall a b c', feedl (a :: b :: tail) c' = feedl [a; b] c') by (intros a b c'; apply (AD [a; b])).
    assert (AD3 : forall a b d c', feedl (a :: b :: d :: tail) c' = feedl [a; b; d] c') by (intros a b d c'; apply (AD [a; b; d])).
    destruct sec as [z|e]; cbn [censor].
    - pose proof (add_cases (z, 1) c F) as A1. destruct (run_filters fl (z, 1) fc) as [b|e1].
      + (* the secant result is stored or rejected *)
        destruct A1 as (c1 & A1 & F1). destruct (e_has_df E) eqn:DF.
        * destruct new as [w|e]; cbn [censor].
          -- pose proof (add_cases (w, 1) c1 F1) as A2. destruct (run_filters fl (w, 1) fc) as [b2|e2].
             ++ destruct A2 as (c2 & A2 & F2).
                unfold mseq, mbind, advance, c_advance, lift, addRoot; rewrite HP; unfold emit, ret; cbn [fst snd app]. fold tail.
                rewrite app_nil_r, AD3. unfold feedl; cbn [roots_of flat_map app tagged map feed].
                rewrite A1. cbn [fst snd app]. rewrite A2. cbn [fst snd app]. eauto.
             ++ destruct (catches_RuntimeError e2) eqn:C2.
                ** unfold mseq, mbind, advance, c_advance, lift, addRoot; rewrite HP; unfold emit, ret, raise; cbn [fst snd app catches_RuntimeError]. fold tail.
                   rewrite app_nil_r, AD2. unfold feedl; cbn [roots_of flat_map app tagged map feed].
                   rewrite A1. cbn [fst snd app]. rewrite A2. cbn [fst snd app]. rewrite C2. eauto.
                ** unfold mseq, mbind, advance, c_advance, lift, addRoot; rewrite HP; unfold emit, ret; cbn [fst snd app]. fold tail.
                   rewrite app_nil_r, AD3. unfold feedl; cbn [roots_of flat_map app tagged map feed].
                   rewrite A1. cbn [fst snd app]. rewrite A2. cbn [fst snd app]. rewrite C2. eauto.
          -- unfold mseq, mbind, advance, c_advance, lift, addRoot; rewrite HP; unfold emit, ret, raise; cbn [fst snd app]. fold tail.
             destruct (catches_RuntimeError e) eqn:C2;
               rewrite app_nil_r, AD2; unfold feedl; cbn [roots_of flat_map app tagged map feed];
               rewrite A1; cbn [fst snd app]; rewrite C2; eauto.
        * unfold mseq, mbind, advance, c_advance, lift, addRoot; rewrite HP; unfold emit, ret; cbn [fst snd app]. fold tail.
          rewrite app_nil_r, AD2. unfold feedl; cbn [roots_of flat_map app tagged map feed].
          rewrite A1. cbn [fst snd app]. eauto.
      + (* the filters raise *)
        destruct (catches_RuntimeError e1) eqn:C1.
        * unfold mseq, mbind, advance, c_advance, lift, addRoot; rewrite HP; unfold emit, ret, raise; cbn [fst snd app catches_RuntimeError]. fold tail.
          rewrite app_nil_r, AD1. unfold feedl; cbn [roots_of flat_map app tagged map feed].
          rewrite A1. cbn [fst snd app]. rewrite C1. eauto.
        * destruct (e_has_df E) eqn:DF; [destruct (censor new) as [w|e]|].
          -- unfold mseq, mbind, advance, c_advance, lift, addRoot; rewrite HP; unfold emit, ret; cbn [fst snd app]. fold tail.
             rewrite app_nil_r, AD3. unfold feedl; cbn [roots_of flat_map app tagged map feed].
             rewrite A1. cbn [fst snd app]. rewrite C1. eauto.
          -- unfold mseq, mbind, advance, c_advance, lift, addRoot; rewrite HP; unfold emit, ret, raise; cbn [fst snd app]. fold tail.
             destruct (catches_RuntimeError e) eqn:C2;
               rewrite app_nil_r, AD2; unfold feedl; cbn [roots_of flat_map app tagged map feed];
               rewrite A1; cbn [fst snd app]; rewrite C1; eauto.
          -- unfold mseq, mbind, advance, c_advance, lift, addRoot; rewrite HP; unfold emit, ret; cbn [fst snd app]. fold tail.
             rewrite app_nil_r, AD2. unfold feedl; cbn [roots_of flat_map app tagged map feed].
             rewrite A1. cbn [fst snd app]. rewrite C1. eauto.
    - unfold mseq, mbind, advance, c_advance, lift; rewrite HP; unfold emit, ret, raise; cbn [fst snd app]. fold tail.
      destruct (catches_RuntimeError e) eqn:CE;
        rewrite app_nil_r, AD1; unfold feedl; cbn [roots_of flat_map app tagged map feed]; eauto.
  Qed.
End Couple.
