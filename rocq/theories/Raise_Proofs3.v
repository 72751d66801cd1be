From Coq Require Import Reals Qreals.
From Verif Require Import PyBase Rounding_Model Poly_Model Container_Model Finder_Model Refine_Model Refine_Spec Cache_Model Sum_Model Sum_Spec
  Quad_Model Whole_Model Qsearch_Model EndToEnd_Model Raise_Model Raise_Spec Raise_Proofs Raise_Proofs2.
Open Scope Z_scope.

(** ** Searches with the two estimators *)
Lemma sum_search turns f raises deltaPhi maxPrecision numPts precision fuel debug
    (own : exn -> Prop) secant secant' newton newton' polyroots has_df progress v depth r s s' l :
  only_raises own raises ->
  (forall a b, answers_or_raises (fun e => own e /\ ~ is_RuntimeError e) (secant' a b) (secant a b)) ->
  (forall a, answers_or_raises (fun e => own e /\ ~ is_RuntimeError e) (newton' a) (newton a)) ->
  calcRoots (sum_env turns f deltaPhi maxPrecision numPts precision fuel debug secant newton polyroots has_df progress) v depth r s
    = (s', l, Done tt) ->
  let t := calcRoots (raising_sum_env turns f raises deltaPhi maxPrecision numPts precision fuel debug secant' newton' polyroots has_df progress) v depth r s in
  t = (s', l, Done tt) \/
  exists s1 l1 e, t = (s1, l1, Raised e) /\ own e /\ beginning (roots_of l1) (roots_of l).
Proof.
  intros T Hs Hn C t.
  pose proof (cached_cut own _ _ _ debug secant secant' newton newton' polyroots has_df precision progress v depth r
    (turn_line_cut own raises turns f deltaPhi maxPrecision numPts precision fuel T) Hs Hn s s' l tt C) as H.
  unfold cut_at in H. unfold sum_env in C. rewrite C in H. exact H.
Qed.

Lemma quad_search turns romb f df raises raises_df precision fuel debug
    (own : exn -> Prop) secant secant' newton newton' polyroots has_df progress v depth r s s' l :
  only_raises own raises -> only_raises own raises_df ->
  (forall a b, answers_or_raises (fun e => own e /\ ~ is_RuntimeError e) (secant' a b) (secant a b)) ->
  (forall a, answers_or_raises (fun e => own e /\ ~ is_RuntimeError e) (newton' a) (newton a)) ->
  calcRoots (quad_env turns romb f df precision fuel debug secant newton polyroots has_df progress) v depth r s
    = (s', l, Done tt) ->
  let t := calcRoots (raising_quad_env turns romb f df raises raises_df precision fuel debug secant' newton' polyroots has_df progress) v depth r s in
  t = (s', l, Done tt) \/
  exists s1 l1 e, t = (s1, l1, Raised e) /\ own e /\ beginning (roots_of l1) (roots_of l).
Proof.
  intros T Td Hs Hn C t.
  pose proof (cached_cut own _ _ _ debug secant secant' newton newton' polyroots has_df precision progress v depth r
    (quad_line_cut own raises raises_df turns romb f df precision fuel T Td) Hs Hn s s' l tt C) as H.
  unfold cut_at in H. unfold quad_env in C. rewrite C in H. exact H.
Qed.

(** ** Seen from the finder *)
Lemma feed_app ctx a b c : feed ctx (a ++ b) c =
  match feed ctx a c with (c', Ok _) => feed ctx b c' | r => r end.
Proof.
  revert c. induction a as [|[i r] a IH]; intro c; [reflexivity|]. cbn [app feed].
  destruct (rc_add i r ctx c) as [c' [u|e]]; [apply IH|reflexivity].
Qed.

Lemma beginning_firstn {A} (a b : list A) : beginning a b -> a = firstn (List.length a) b.
Proof. intros [x ->]. rewrite firstn_app, Nat.sub_diag, firstn_all. cbn [firstn]. symmetry. apply app_nil_r. Qed.

Lemma finder_cut {S : Type} (E E' : env S) own v depth info s fH dfH dflt reRan imRan prec c c1 :
  (forall x r, cut own (calcRoots (env_for E' x) v depth r) (calcRoots (env_for E x) v depth r)) ->
  let ctx := serial_context fH dfH dflt reRan imRan prec in
  let run := argument_algorithm E v depth info s ctx in
  ar_end run = None ->
  feed (toFilterContext ctx) (ar_reports run) c = (c1, Ok tt) ->
  let after := calculateRoots fH dfH dflt (argument_algorithm E' v depth info s) reRan imRan prec c in
  after = (c1, Ok tt) \/
  exists e n, own e /\
    after = (fst (feed (toFilterContext ctx) (firstn n (ar_reports run)) c),
             match e with KeyboardInterrupt => Ok tt | _ => Err e end).
Proof.
  intros C ctx run R F after. subst after run. unfold calculateRoots. fold ctx.
  unfold argument_algorithm in *.
  specialize (C ctx (rect_of ctx) s).
  destruct (calcRoots (env_for E ctx) v depth (rect_of ctx) s) as [[s2 l] [u|e|]]; try discriminate R.
  cbn [ar_end ar_reports] in *.
  destruct (C s2 l u eq_refl) as [H|(t & l1 & e & H & O & B)]; rewrite H; cbn [ar_end ar_reports].
  - left. rewrite F. reflexivity.
  - right. cbn [fst snd] in B. apply (beginning_map (fun r => (info r, r))) in B.
    exists e, (List.length (map (fun r => (info r, r)) (roots_of l1))). split; [exact O|].
    rewrite <- (beginning_firstn _ _ B). destruct B as [x B]. rewrite B, feed_app in F.
    destruct (feed (toFilterContext ctx) (map (fun r => (info r, r)) (roots_of l1)) c) as [c2 [u2|x2]]; [|discriminate].
    cbn [fst]. destruct e; reflexivity.
Qed.

Lemma env_for_cut own (LS : Type) (line line' : Z -> cplx -> cplx -> LS -> LS * list cplx * res cplx)
    debug secant secant' newton newton' polyroots has_df precision progress v depth x r :
  cut_line own line line' ->
  (forall a b, answers_or_raises (loud own) (secant' a b) (secant a b)) ->
  (forall a, answers_or_raises (loud own) (newton' a) (newton a)) ->
  cut own (calcRoots (env_for (cached_env line' debug secant' newton' polyroots has_df precision progress) x) v depth r)
    (calcRoots (env_for (cached_env line debug secant newton polyroots has_df precision progress) x) v depth r).
Proof.
  intros C Hs Hn. apply (cached_cut own LS line line' debug secant secant' newton newton' polyroots
    (match cx_df x with Some _ => true | None => false end) (cx_precision x) progress v depth r C Hs Hn).
Qed.

Lemma sum_finder turns f raises deltaPhi maxPrecision numPts precision fuel debug
    (own : exn -> Prop) secant secant' newton newton' polyroots has_df progress v depth info s fH dfH dflt reRan imRan prec c c1 :
  only_raises own raises ->
  (forall a b, answers_or_raises (fun e => own e /\ ~ is_RuntimeError e) (secant' a b) (secant a b)) ->
  (forall a, answers_or_raises (fun e => own e /\ ~ is_RuntimeError e) (newton' a) (newton a)) ->
  let ctx := serial_context fH dfH dflt reRan imRan prec in
  let run := argument_algorithm
    (sum_env turns f deltaPhi maxPrecision numPts precision fuel debug secant newton polyroots has_df progress) v depth info s ctx in
  ar_end run = None ->
  feed (toFilterContext ctx) (ar_reports run) c = (c1, Ok tt) ->
  let after := calculateRoots fH dfH dflt (argument_algorithm
    (raising_sum_env turns f raises deltaPhi maxPrecision numPts precision fuel debug secant' newton' polyroots has_df progress)
    v depth info s) reRan imRan prec c in
  after = (c1, Ok tt) \/
  exists e n, own e /\
    after = (fst (feed (toFilterContext ctx) (firstn n (ar_reports run)) c),
             match e with KeyboardInterrupt => Ok tt | _ => Err e end).
Proof.
  intros T Hs Hn. apply finder_cut. intros x r. apply env_for_cut; try assumption. apply turn_line_cut, T.
Qed.

Lemma quad_finder turns romb f df raises raises_df precision fuel debug
    (own : exn -> Prop) secant secant' newton newton' polyroots has_df progress v depth info s fH dfH dflt reRan imRan prec c c1 :
  only_raises own raises -> only_raises own raises_df ->
  (forall a b, answers_or_raises (fun e => own e /\ ~ is_RuntimeError e) (secant' a b) (secant a b)) ->
  (forall a, answers_or_raises (fun e => own e /\ ~ is_RuntimeError e) (newton' a) (newton a)) ->
  let ctx := serial_context fH dfH dflt reRan imRan prec in
  let run := argument_algorithm
    (quad_env turns romb f df precision fuel debug secant newton polyroots has_df progress) v depth info s ctx in
  ar_end run = None ->
  feed (toFilterContext ctx) (ar_reports run) c = (c1, Ok tt) ->
  let after := calculateRoots fH dfH dflt (argument_algorithm
    (raising_quad_env turns romb f df raises raises_df precision fuel debug secant' newton' polyroots has_df progress)
    v depth info s) reRan imRan prec c in
  after = (c1, Ok tt) \/
  exists e n, own e /\
    after = (fst (feed (toFilterContext ctx) (firstn n (ar_reports run)) c),
             match e with KeyboardInterrupt => Ok tt | _ => Err e end).
Proof.
  intros T Td Hs Hn. apply finder_cut. intros x r. apply env_for_cut; try assumption. apply quad_line_cut; assumption.
Qed.

(** ** The summation caches after an exception *)
Section Keeps.
  Context {S : Type} (E : env S) (Inv : S -> Prop).
  Hypothesis Hest : forall k q s, Inv s -> Inv (fst (fst (e_est E k q s))).
  Hypothesis Hrm : forall a b s, Inv s -> Inv (e_rm E a b s).
  Hypothesis Hreset : forall s, Inv s -> Inv (e_reset E s).

  Definition safe {A} (m : @M S A) : Prop := forall s, Inv s -> Inv (fst (fst (m s))).
  Lemma safe_emit l : safe (emit l). Proof. intros s H. exact H. Qed.
  Lemma safe_ret {A} (a : A) : safe (ret a). Proof. intros s H. exact H. Qed.
  Lemma safe_raise {A} e : safe (@raise S A e). Proof. intros s H. exact H. Qed.
  Lemma safe_bind {A B} (m : @M S A) (k : A -> @M S B) : safe m -> (forall a, safe (k a)) -> safe (mbind m k).
  Proof.
    intros Hm Hk s H. unfold mbind. specialize (Hm s H).
    destruct (m s) as [[s1 l1] [a|e|]]; [|exact Hm|exact Hm].
    specialize (Hk a s1 Hm). destruct (k a s1) as [[s2 l2] o]. exact Hk.
  Qed.
  Lemma safe_seq {A B} (m : @M S A) (k : @M S B) : safe m -> safe k -> safe (mseq m k).
  Proof. intros. apply safe_bind; auto. Qed.
  Lemma safe_moment k q : safe (calcMoment E k q).
  Proof. intros s H. unfold calcMoment. specialize (Hest k q s H). destruct (e_est E k q s) as [[s' zs] v]. exact Hest. Qed.
  Lemma safe_refined q : safe (calculateRefinedMoment E q).
  Proof. apply safe_bind; [apply safe_moment|intro; apply safe_ret]. Qed.
  Lemma safe_rm a b : safe (cacheRemove E a b).
  Proof. intros s H. cbn. apply Hrm, H. Qed.
  Lemma safe_getRoot q phi : safe (getRootFromRectangle E q phi).
  Proof. apply safe_seq; apply safe_emit. Qed.
  Lemma safe_simple d q phi : (forall q phi, safe (d q phi)) -> safe (decide_simple E d q phi).
  Proof.
    intro Hd. unfold decide_simple. destruct (Qltb phi TWO_PI); [apply safe_seq; apply safe_emit|].
    destruct (_ && _); [apply safe_getRoot|]. destruct (Qltb _ _); cbv zeta.
    all: apply safe_bind; [apply safe_refined|intro p1].
    all: apply safe_seq; [apply Hd|]; apply safe_seq; [apply safe_rm|].
    all: apply safe_bind; [apply safe_refined|intro p2].
    all: apply safe_seq; [apply Hd|apply safe_rm].
  Qed.
  Lemma safe_newton q phi : safe (newton_branch E q phi).
  Proof.
    unfold newton_branch. destruct (e_secant E _ _) as [z|e].
    - destruct (e_has_df E).
      + destruct (e_newton E _) as [w|e]; repeat (apply safe_seq; [apply safe_emit|]); [apply safe_ret|].
        destruct (catches_RuntimeError e); [apply safe_ret|apply safe_raise].
      + repeat (apply safe_seq; [apply safe_emit|]). apply safe_ret.
    - repeat (apply safe_seq; [apply safe_emit|]). destruct (catches_RuntimeError e); [apply safe_ret|apply safe_raise].
  Qed.
  Lemma safe_moments n : forall k q, safe (moments_from E k n q).
  Proof.
    induction n as [|n IH]; intros k q; cbn [moments_from]; [apply safe_ret|].
    apply safe_bind; [apply safe_moment|intro m]. apply safe_bind; [apply IH|intro ms]. apply safe_ret.
  Qed.
  Lemma safe_decide v n : forall q phi, safe (decideRefinement E v n q phi).
  Proof.
    induction n as [|n IH]; intros q phi; cbn [decideRefinement]; [intros s H; exact H|]. destruct v.
    - apply safe_simple; auto.
    - unfold decide_newton. destruct (_ && _); [apply safe_getRoot|]. destruct (_ && _); [apply safe_newton|apply safe_simple; auto].
    - unfold decide_poly. destruct (negb _); [apply safe_raise|]. destruct (_ && _); [apply safe_getRoot|].
      destruct (_ && _); [|apply safe_simple; auto]. apply safe_bind; [apply safe_moments|]. intro ms.
      destruct (e_polyroots E _); [|apply safe_raise]. apply safe_seq; apply safe_emit.
  Qed.
  Lemma safe_calcRoots v n r : safe (calcRoots E v n r).
  Proof.
    intros s H. unfold calcRoots.
    assert (H0 : Inv (if e_dirty E s then e_reset E s else s)) by (destruct (e_dirty E s); [apply Hreset|]; exact H).
    revert H0. generalize (if e_dirty E s then e_reset E s else s). intros s0 H0.
    apply (safe_bind (calcMoment E 0 r)); [apply safe_moment|intro; apply safe_decide|exact H0].
  Qed.
End Keeps.

Lemma loop_state {LS} (line : Z -> cplx -> cplx -> LS -> LS * list cplx * res cplx) debug k (Inv : LS -> Prop) :
  (forall a b s, Inv s -> Inv (fst (fst (line k a b s)))) ->
  forall es phi st, Inv (snd st) -> Inv (snd (fst (fst (moment_loop line debug k es phi st)))).
Proof.
  intro Hl. induction es as [|[a b] es IH]; intros phi [c ls] H; cbn [moment_loop fst snd] in *; [exact H|].
  destruct (ec_retrieve debug k a b c) as [c1 entry]. destruct (truthy entry); [apply IH, H|].
  specialize (Hl a b ls H). destruct (line k a b ls) as [[ls1 zs] [v|e]]; [|exact Hl].
  cbn [fst snd] in Hl.
  set (c2 := ec_store k b a (copp v) (ec_store k a b v c1)).
  specialize (IH (cadd phi v) (c2, ls1) Hl).
  destruct (moment_loop line debug k es (cadd phi v) (c2, ls1)) as [[st' zs'] w]. exact IH.
Qed.

Lemma caches_served turns f raises deltaPhi maxPrecision numPts precision fuel debug
    secant newton polyroots has_df progress v depth r s :
  let '(t, _, _) := calcRoots (raising_sum_env turns f raises deltaPhi maxPrecision numPts precision fuel debug secant newton polyroots has_df progress) v depth r s in
  exists h, (forall q, In q h -> for_function f deltaPhi maxPrecision numPts precision q) /\ snd t = fold_left serve h (snd s).
Proof.
  set (reach := fun st : sum_state R => exists h, (forall q, In q h -> for_function f deltaPhi maxPrecision numPts precision q) /\ st = fold_left serve h (snd s)).
  pose proof (safe_calcRoots (raising_sum_env turns f raises deltaPhi maxPrecision numPts precision fuel debug secant newton polyroots has_df progress)
    (fun st => reach (snd st))) as K.
  assert (X : reach (snd (fst (fst (calcRoots (raising_sum_env turns f raises deltaPhi maxPrecision numPts precision fuel debug secant newton polyroots has_df progress) v depth r s))))).
  2:{ destruct (calcRoots _ _ _ _ _) as [[t l] o]. exact X. }
  apply K.
  - intros k q st H. unfold raising_sum_env. cbn [e_est cached_env]. unfold cached_moment. apply loop_state; [|exact H].
    intros a b u Hu. unfold raising_turn_line.
    destruct (sumLine_cut (fun _ => True) raises (fun _ _ _ => Logic.I) (vanishes f) 0%R Rplus Ropp (phase_step f) (at_least deltaPhi) (refinement deltaPhi)
      (nearer maxPrecision) numPts precision fuel k a b u) as [E|(found & e & E & _)]; rewrite E; [|exact Hu].
    assert (R : reach (fst (sumLine 0%R Rplus Ropp (vanishes f) (phase_step f) (at_least deltaPhi) (refinement deltaPhi)
      (nearer maxPrecision) numPts precision fuel k a b u))).
    { destruct Hu as (h & Hh & ->). exists (h ++ [mkRequest f deltaPhi maxPrecision numPts precision fuel k a b]). split.
      - intros x Hx. apply in_app_or in Hx. destruct Hx as [Hx|[<-|[]]]; [apply Hh, Hx|]. unfold for_function. cbn. auto.
      - rewrite fold_left_app. reflexivity. }
    destruct (sumLine _ _ _ _ _ _ _ _ _ _ _ _ _ _ _) as [st' [zs p|e|]]; exact R.
  - intros a b st H. exact H.
  - intros st H. exact H.
  - exists []. split; [intros q []|reflexivity].
Qed.

(** ** A function that never raises *)
Lemma beginning_never : only_raises (fun _ => False) (fun _ => None).
Proof. intros zs e H. discriminate. Qed.

Lemma turn_line_silent turns f deltaPhi maxPrecision numPts precision fuel k a b s :
  raising_turn_line turns f (fun _ => None) deltaPhi maxPrecision numPts precision fuel k a b s
  = turn_line turns f deltaPhi maxPrecision numPts precision fuel k a b s.
Proof. destruct (turn_line_cut _ _ turns f deltaPhi maxPrecision numPts precision fuel beginning_never k a b s) as [H|(x & e & _ & [] & _)]; exact H. Qed.
Lemma quad_line_silent turns romb f df precision fuel k a b s :
  raising_quad_turn_line turns romb f df (fun _ => None) (fun _ => None) precision fuel k a b s
  = quad_turn_line turns romb f df precision fuel k a b s.
Proof. destruct (quad_line_cut _ _ _ turns romb f df precision fuel beginning_never beginning_never k a b s) as [H|(x & e & _ & [] & _)]; exact H. Qed.

(** ** The exception that the Newton variant swallows *)
Lemma swallowed {S} (E : env S) depth r s s1 m z e :
  e_est E 0 r (if e_dirty E s then e_reset E s else s) = (s1, [], Ok m) ->
  (8 # 10 < re m)%Q -> (re m < 13 # 10)%Q ->
  (x2 r - x1 r < 1 # 10)%Q -> (y2 r - y1 r < 1 # 10)%Q ->
  (pow10 (- fst (e_precision E)) <= x2 r - x1 r)%Q ->
  is_RuntimeError e -> e_has_df E = false ->
  let with_secant a := mkEnv (e_est E) (e_rm E) (e_dirty E) (e_reset E) (fun _ _ => a) (e_newton E) (e_polyroots E)
    (e_has_df E) (e_precision E) (e_progress E) in
  (exists l, calcRoots (with_secant (Ok z)) NewtonV (Datatypes.S depth) r s = (s1, l, Done tt) /\ roots_of l = [(z, 1)]) /\
  (exists l, calcRoots (with_secant (Err e)) NewtonV (Datatypes.S depth) r s = (s1, l, Done tt) /\ roots_of l = []).
Proof.
  intros Hm M1 M2 Dx Dy Px He Hdf with_secant.
  assert (C : catches_RuntimeError e = true) by (destruct He as [->|[->| ->]]; reflexivity).
  assert (Q1 : forall a b, (a < b)%Q -> Qltb a b = true).
  { intros a b H. unfold Qltb. apply Bool.negb_true_iff. destruct (Qle_bool b a) eqn:Q; [|reflexivity].
    apply Qle_bool_iff in Q. exfalso. apply (Qlt_not_le _ _ H Q). }
  assert (Q2 : forall a b, (b <= a)%Q -> Qltb a b = false).
  { intros a b H. unfold Qltb. apply Bool.negb_false_iff, Qle_bool_iff, H. }
  assert (G : forall a, decideRefinement (with_secant a) NewtonV (Datatypes.S depth) r (re m) = newton_branch (with_secant a) r (re m)).
  { intro a. cbn [decideRefinement]. unfold decide_newton, epsRe, epsIm, deltaRe, deltaIm, TWO_PI, FOUR_PI, with_secant.
    cbn [e_precision]. rewrite (Q1 _ _ M1), (Q1 _ _ M2), (Q2 _ _ Px), (Q1 _ _ Dx), (Q1 _ _ Dy). reflexivity. }
  assert (Z0 : forall b, roots_of (if e_progress E then [EvAdvance b] else []) = []) by (intro; destruct (e_progress E); reflexivity).
  assert (R : forall a, exists bar, roots_of bar = [] /\
     calcRoots (with_secant a) NewtonV (Datatypes.S depth) r s =
       (s1, [EvMoment 0 r (Ok m)] ++ match a with Ok z => [EvNewton r (re m); EvRoot (z, 1)] | Err _ => [EvNewton r (re m)] end ++ bar,
        match a with Ok _ => Done tt | Err x => if catches_RuntimeError x then Done tt else Raised x end)).
  { intro a. unfold calcRoots, mbind at 1, calcMoment. unfold with_secant at 1 2 3. cbn [e_dirty e_reset e_est].
    rewrite Hm. cbn [map app]. rewrite G. unfold newton_branch, advance, with_secant. cbn [e_secant e_has_df e_progress]. rewrite Hdf.
    exists ((if e_progress E then [EvAdvance (area r)] else []) ++ []). split; [rewrite app_nil_r; apply Z0|].
    destruct a as [w|x].
    - unfold mseq, mbind, emit, ret. cbn [app]. rewrite ?app_nil_r. reflexivity.
    - destruct (catches_RuntimeError x); unfold mseq, mbind, emit, ret, raise; cbn [app]; rewrite ?app_nil_r; reflexivity. }
  split.
  - destruct (R (Ok z)) as (bar & B & Q). rewrite Q. eexists. split; [reflexivity|]. rewrite !roots_of_app, B. reflexivity.
  - destruct (R (Err e)) as (bar & B & Q). rewrite Q, C. eexists. split; [reflexivity|]. rewrite !roots_of_app, B. reflexivity.
Qed.
