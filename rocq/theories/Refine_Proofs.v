(** Proofs about the adaptive refinement. *)
From Verif Require Import PyBase Rounding_Model Rounding_Proofs Poly_Model Refine_Model Refine_Spec.
Open Scope Z_scope.

Lemma mbind_inv {S A B} (m : @M S A) (k : A -> @M S B) s s' l o :
  mbind m k s = (s', l, o) ->
  (exists e, m s = (s', l, Raised e) /\ o = Raised e) \/
  (m s = (s', l, OutOfFuel) /\ o = OutOfFuel) \/
  (exists s1 l1 a l2, m s = (s1, l1, Done a) /\ k a s1 = (s', l2, o) /\ l = l1 ++ l2).
Proof.
  unfold mbind. destruct (m s) as [[s1 l1] [a|e|]] eqn:E.
  - destruct (k a s1) as [[s2 l2] o2] eqn:E2. intros [= <- <- <-].
    right; right. exists s1, l1, a, l2. auto.
  - intros [= <- <- <-]. left. exists e. auto.
  - intros [= <- <- <-]. right; left. auto.
Qed.

Section Runs.
  Context {S : Type} (E : env S).
  Notation small r := (sub_tolerance (e_precision E) r).

  Definition adv (a : Q) : list event := if e_progress E then [EvAdvance a] else [].

  (** A root found on a contour sample by the estimator. *)
  Definition est_zero (z : cplx) : Prop :=
    exists k r s, In z (snd (fst (e_est E k r s))).

  Definition est (k : Z) (r : rect) (l : list event) (m : res cplx) : Prop :=
    exists s s' zs, e_est E k r s = (s', zs, m) /\
      l = map (fun z => EvRoot (z, 0)) zs ++ [EvMoment k r m].

  (** The two halves, in search order. *)
  Definition splits (r A B : rect) : Prop :=
    ~ small r /\
    (((deltaIm r / epsIm E < deltaRe r / epsRe E)%Q /\
      A = mkRect (x1 r) ((x1 r + x2 r) / 2) (y1 r) (y2 r) /\
      B = mkRect ((x1 r + x2 r) / 2) (x2 r) (y1 r) (y2 r)) \/
     ((deltaRe r / epsRe E <= deltaIm r / epsIm E)%Q /\
      A = mkRect (x1 r) (x2 r) (y1 r) ((y1 r + y2 r) / 2) /\
      B = mkRect (x1 r) (x2 r) ((y1 r + y2 r) / 2) (y2 r))).

  Definition solver_zone (v : variant) (r : rect) (phi : Q) : Prop :=
    match v with
    | Simple => False
    | NewtonV => (TWO_PI < phi /\ phi < FOUR_PI /\ deltaRe r < 1 # 10 /\ deltaIm r < 1 # 10)%Q
    | PolyV => (TWO_PI < phi /\ phi < MAX_PHASE)%Q
    end.

  Definition newton_result (r : rect) (phi : Q) (l : list event) (o : outcome unit) : Prop :=
    exists rs (x : option exn),
      l = EvNewton r phi :: map EvRoot rs ++ adv (area r) /\
      o = match x with None => Done tt | Some e => if catches_RuntimeError e then Done tt else Raised e end /\
      let my := ((1 # 2) * (y1 r + y2 r))%Q in
      let c := ((x1 r + x2 r) * (1 # 2), (y1 r + y2 r) * (1 # 2))%Q in
      match e_secant E (x1 r, my) (x2 r, my) with
      | Err e => rs = [] /\ x = Some e
      | Ok z => if e_has_df E then
                  match e_newton E c with
                  | Err e => rs = [(z, 1)] /\ x = Some e
                  | Ok w => rs = [(z, 1); (w, 1)] /\ x = None
                  end
                else rs = [(z, 1)] /\ x = None
      end.

  Inductive moms (r : rect) : Z -> nat -> list event -> res (list cplx) -> Prop :=
  | moms_nil k : moms r k 0 [] (Ok [])
  | moms_err k n l e : est k r l (Err e) -> moms r k (Datatypes.S n) l (Err e)
  | moms_ok k n l1 m l2 ms :
      est k r l1 (Ok m) -> moms r (k + 1) n l2 (Ok ms) ->
      moms r k (Datatypes.S n) (l1 ++ l2) (Ok (m :: ms))
  | moms_err2 k n l1 m l2 e :
      est k r l1 (Ok m) -> moms r (k + 1) n l2 (Err e) ->
      moms r k (Datatypes.S n) (l1 ++ l2) (Err e).

  Definition poly_result (r : rect) (phi : Q) (l : list event) (o : outcome unit) : Prop :=
    exists l1 ms, moms r 1 (Z.to_nat (round_half_even phi)) l1 ms /\
      match ms with
      | Err e => l = l1 /\ o = Raised e
      | Ok ms =>
          match e_polyroots E (coefficients_cplx ms) with
          | Err e => l = l1 /\ o = Raised e
          | Ok rts => o = Done tt /\
              l = l1 ++ EvPoly r phi :: map EvRoot (group_roots (e_precision E) rts) ++ adv (area r)
          end
      end.

  (** Big-step description of a run at recursion depth [n]. *)
  Inductive runs (v : variant) : nat -> rect -> Q -> list event -> outcome unit -> Prop :=
  | runs_fuel r phi : runs v 0 r phi [] OutOfFuel
  | runs_nodf n r phi : v = PolyV -> e_has_df E = false ->
      runs v (Datatypes.S n) r phi [] (Raised ValueError)
  | runs_discard n r phi : (v = PolyV -> e_has_df E = true) -> (phi < TWO_PI)%Q ->
      runs v (Datatypes.S n) r phi (EvDiscard r phi :: adv (area r)) (Done tt)
  | runs_report n r phi : (v = PolyV -> e_has_df E = true) ->
      (TWO_PI <= phi)%Q -> small r ->
      runs v (Datatypes.S n) r phi
        (EvReport r phi :: EvRoot (center r, round_half_even phi) :: adv (deltaRe r * (0 - 0))%Q) (Done tt)
  | runs_newton n r phi l o : v = NewtonV -> ~ small r -> solver_zone v r phi ->
      newton_result r phi l o -> runs v (Datatypes.S n) r phi l o
  | runs_poly n r phi l o : v = PolyV -> e_has_df E = true -> ~ small r -> solver_zone v r phi ->
      poly_result r phi l o -> runs v (Datatypes.S n) r phi l o
  | runs_split1 n r phi A B l e : (v = PolyV -> e_has_df E = true) ->
      (TWO_PI <= phi)%Q -> ~ solver_zone v r phi -> splits r A B ->
      est 0 A l (Err e) -> runs v (Datatypes.S n) r phi l (Raised e)
  | runs_split2 n r phi A B l1 m l2 o : (v = PolyV -> e_has_df E = true) ->
      (TWO_PI <= phi)%Q -> ~ solver_zone v r phi -> splits r A B ->
      est 0 A l1 (Ok m) -> runs v n A (re m) l2 o -> o <> Done tt ->
      runs v (Datatypes.S n) r phi (l1 ++ l2) o
  | runs_split3 n r phi A B l1 m l2 l3 e : (v = PolyV -> e_has_df E = true) ->
      (TWO_PI <= phi)%Q -> ~ solver_zone v r phi -> splits r A B ->
      est 0 A l1 (Ok m) -> runs v n A (re m) l2 (Done tt) ->
      est 0 B l3 (Err e) -> runs v (Datatypes.S n) r phi (l1 ++ l2 ++ l3) (Raised e)
  | runs_split4 n r phi A B l1 m l2 l3 m2 l4 o : (v = PolyV -> e_has_df E = true) ->
      (TWO_PI <= phi)%Q -> ~ solver_zone v r phi -> splits r A B ->
      est 0 A l1 (Ok m) -> runs v n A (re m) l2 (Done tt) ->
      est 0 B l3 (Ok m2) -> runs v n B (re m2) l4 o ->
      runs v (Datatypes.S n) r phi (l1 ++ l2 ++ l3 ++ l4) o.

  Lemma small_dec r : small r \/ ~ small r.
  Proof.
    unfold sub_tolerance.
    destruct (Qlt_le_dec (x2 r - x1 r) (pow10 (- fst (e_precision E)))) as [H|H];
    destruct (Qlt_le_dec (y2 r - y1 r) (pow10 (- snd (e_precision E)))) as [H'|H'];
    [left; split; assumption|right..]; intros [? ?]; lra.
  Qed.

  Lemma small_test r :
    Qltb (deltaRe r) (epsRe E) && Qltb (deltaIm r) (epsIm E) = true <-> small r.
  Proof.
    rewrite andb_true_iff, !Qltb_true. unfold sub_tolerance, deltaRe, deltaIm, epsRe, epsIm. tauto.
  Qed.

  Lemma calcMoment_inv k r s s' l o :
    calcMoment E k r s = (s', l, o) ->
    exists m, est k r l m /\ o = match m with Ok a => Done a | Err e => Raised e end.
  Proof.
    unfold calcMoment. destruct (e_est E k r s) as [[s1 zs] m] eqn:H. intros [= <- <- <-].
    exists m. split; [|reflexivity]. exists s, s1, zs. auto.
  Qed.

  Lemma refined_inv r s s' l o :
    calculateRefinedMoment E r s = (s', l, o) ->
    exists m, est 0 r l m /\ o = match m with Ok a => Done (re a) | Err e => Raised e end.
  Proof.
    unfold calculateRefinedMoment. intro H. apply mbind_inv in H.
    destruct H as [(e & H & ->)|[[H ->]|(s1 & l1 & a & l2 & H1 & H2 & ->)]];
      apply calcMoment_inv in H || apply calcMoment_inv in H1.
    - destruct H as ([a|x] & H & Hx); [discriminate|]. exists (Err x). split; [exact H|congruence].
    - destruct H as ([a|x] & H & Hx); discriminate.
    - destruct H1 as ([b|x] & H1 & Hx); [|discriminate]. injection Hx as <-.
      unfold ret in H2. injection H2 as <- <- <-. exists (Ok a). rewrite app_nil_r. auto.
  Qed.

  Lemma emit_advance_inv evs a s s' l o :
    mseq (emit evs) (advance E a) s = (s', l, o) -> l = evs ++ adv a /\ o = Done tt /\ s' = s.
  Proof. unfold mseq, mbind, emit, advance, adv. intros [= <- <- <-]. auto. Qed.

  Lemma moments_from_inv n : forall k r s s' l o,
    moments_from E k n r s = (s', l, o) ->
    exists m, moms r k n l m /\ o = match m with Ok a => Done a | Err e => Raised e end.
  Proof.
    induction n as [|n IH]; intros k r s s' l o; cbn [moments_from].
    - unfold ret. intros [= <- <- <-]. exists (Ok []). split; [constructor|reflexivity].
    - intro H. apply mbind_inv in H.
      destruct H as [(e & H & ->)|[[H ->]|(s1 & l1 & a & l2 & H1 & H2 & ->)]].
      + apply calcMoment_inv in H. destruct H as ([a|x] & H & Hx); [discriminate|].
        injection Hx as ->. exists (Err x). split; [constructor; exact H|reflexivity].
      + apply calcMoment_inv in H. destruct H as ([a|x] & H & Hx); discriminate.
      + apply calcMoment_inv in H1. destruct H1 as ([b|x] & H1 & Hx); [|discriminate].
        injection Hx as <-. apply mbind_inv in H2.
        destruct H2 as [(e & H & ->)|[[H ->]|(s2 & l3 & b & l4 & H2 & H3 & ->)]].
        * apply IH in H. destruct H as ([ms|x] & H & Hx); [discriminate|]. injection Hx as ->.
          exists (Err x). split; [eapply moms_err2; eassumption|reflexivity].
        * apply IH in H. destruct H as ([ms|x] & H & Hx); discriminate.
        * apply IH in H2. destruct H2 as ([ms|x] & H2 & Hx); [|discriminate]. injection Hx as <-.
          unfold ret in H3. injection H3 as <- <- <-. rewrite app_nil_r.
          exists (Ok (a :: b)). split; [eapply moms_ok; eassumption|reflexivity].
  Qed.

  Lemma newton_branch_inv r phi s s' l o :
    newton_branch E r phi s = (s', l, o) -> newton_result r phi l o.
  Proof.
    unfold newton_branch, newton_result, adv. cbv zeta.
    destruct (e_secant E _ _) as [z|e].
    - destruct (e_has_df E).
      + destruct (e_newton E _) as [w|e].
        * unfold mseq, mbind, emit, advance, ret. intros [= <- <- <-].
          exists [(z, 1); (w, 1)], None. rewrite app_nil_r. auto.
        * unfold mseq, mbind, emit, advance, ret, raise. intro H.
          exists [(z, 1)], (Some e). destruct e; injection H as <- <- <-; rewrite app_nil_r; auto.
      + unfold mseq, mbind, emit, advance, ret. intros [= <- <- <-].
        exists [(z, 1)], None. rewrite app_nil_r. auto.
    - unfold mseq, mbind, emit, advance, ret, raise. intro H.
      exists [], (Some e). destruct e; injection H as <- <- <-; rewrite app_nil_r; auto.
  Qed.

  (** One recursion of the simple rule, for any behaviour of the recursive calls. *)
  Lemma two_stage (self : rect -> Q -> @M S unit) A B a1 a2 b1 b2 s s' l o :
    mbind (calculateRefinedMoment E A) (fun phi1 =>
      mseq (self A phi1) (mseq (cacheRemove E a1 a2) (
      mbind (calculateRefinedMoment E B) (fun phi2 =>
      mseq (self B phi2) (cacheRemove E b1 b2))))) s = (s', l, o) ->
    (exists e, est 0 A l (Err e) /\ o = Raised e) \/
    (exists m l1 l2 s1 s2, est 0 A l1 (Ok m) /\ self A (re m) s1 = (s2, l2, o) /\ o <> Done tt /\ l = l1 ++ l2) \/
    (exists m l1 l2 l3 s1 s2 e, est 0 A l1 (Ok m) /\ self A (re m) s1 = (s2, l2, Done tt) /\
       est 0 B l3 (Err e) /\ l = l1 ++ l2 ++ l3 /\ o = Raised e) \/
    (exists m l1 l2 l3 m2 l4 s1 s2 s3 s4, est 0 A l1 (Ok m) /\ self A (re m) s1 = (s2, l2, Done tt) /\
       est 0 B l3 (Ok m2) /\ self B (re m2) s3 = (s4, l4, o) /\ l = l1 ++ l2 ++ l3 ++ l4).
  Proof.
    intro H. apply mbind_inv in H.
    destruct H as [(e & H & ->)|[[H ->]|(s1 & l1 & p & l2 & H1 & H2 & ->)]].
    - apply refined_inv in H. destruct H as ([m|x] & H & Hx); [discriminate|].
      injection Hx as ->. left. eauto.
    - apply refined_inv in H. destruct H as ([m|x] & H & Hx); discriminate.
    - apply refined_inv in H1. destruct H1 as ([m|x] & H1 & Hx); [|discriminate]. injection Hx as ->.
      unfold mseq at 1 in H2. apply mbind_inv in H2.
      destruct H2 as [(e & H & ->)|[[H ->]|(s2 & l3 & u & l4 & H2 & H3 & ->)]].
      + right; left. exists m, l1, l2, s1, s'. repeat split; try assumption. discriminate.
      + right; left. exists m, l1, l2, s1, s'. repeat split; try assumption. discriminate.
      + destruct u. unfold mseq at 1 in H3. unfold mbind at 1 in H3. unfold cacheRemove at 1 in H3.
        destruct (mbind (calculateRefinedMoment E B) _ (e_rm E a1 a2 s2)) as [[s5 l5] o5] eqn:H.
        cbn [app] in H3. injection H3 as -> <- <-. rename l5 into l4.
        apply mbind_inv in H.
        destruct H as [(e & H & ->)|[[H ->]|(s6 & l5 & q & l6 & H4 & H5 & ->)]].
        * apply refined_inv in H. destruct H as ([b|x] & H & Hx); [discriminate|]. injection Hx as ->.
          right; right; left. exists m, l1, l3, l4, s1, s2, x. auto.
        * apply refined_inv in H. destruct H as ([b|x] & H & Hx); discriminate.
        * apply refined_inv in H4. destruct H4 as ([b|x] & H4 & Hx); [|discriminate]. injection Hx as ->.
          right; right; right. unfold mseq in H5. apply mbind_inv in H5.
          destruct H5 as [(e & H & ->)|[[H ->]|(s7 & l7 & u & l8 & H5 & H6 & ->)]].
          -- exists m, l1, l3, l5, b, l6, s1, s2, s6, s'. repeat split; assumption.
          -- exists m, l1, l3, l5, b, l6, s1, s2, s6, s'. repeat split; assumption.
          -- unfold cacheRemove in H6. injection H6 as <- <- <-. destruct u.
             exists m, l1, l3, l5, b, l7, s1, s2, s6, s7.
             rewrite app_nil_r. repeat split; assumption.
  Qed.

  Lemma simple_runs v n r phi s s' l o :
    (forall r phi s s' l o, decideRefinement E v n r phi s = (s', l, o) -> runs v n r phi l o) ->
    (v = PolyV -> e_has_df E = true) -> ~ solver_zone v r phi ->
    decide_simple E (decideRefinement E v n) r phi s = (s', l, o) ->
    runs v (Datatypes.S n) r phi l o.
  Proof.
    intros IH Hdf Hz. unfold decide_simple.
    destruct (Qltb_spec phi TWO_PI) as [Hp|Hp].
    { intro H. apply emit_advance_inv in H. destruct H as (-> & -> & ->).
      apply runs_discard; assumption. }
    destruct (_ && _) eqn:Hs.
    { apply small_test in Hs. unfold getRootFromRectangle. intro H.
      apply emit_advance_inv in H. destruct H as (-> & -> & ->). apply runs_report; assumption. }
    assert (Hns : ~ small r).
    { rewrite <- small_test. congruence. }
    destruct (Qltb_spec (deltaIm r / epsIm E) (deltaRe r / epsRe E)) as [Hr|Hr]; cbv zeta.
    - set (A := mkRect (x1 r) _ _ _). set (B := mkRect _ (x2 r) _ _).
      assert (HAB : splits r A B) by (split; [exact Hns|left; auto]).
      intro H. apply two_stage in H.
      destruct H as [(e & H1 & ->)|[(m & l1 & l2 & s1 & s2 & H1 & H2 & H3 & ->)|
        [(m & l1 & l2 & l3 & s1 & s2 & e & H1 & H2 & H3 & -> & ->)|
         (m & l1 & l2 & l3 & m2 & l4 & s1 & s2 & s3 & s4 & H1 & H2 & H3 & H4 & ->)]]].
      + eapply runs_split1; eassumption.
      + eapply runs_split2; try eassumption. eapply IH; exact H2.
      + eapply runs_split3; try eassumption. eapply IH; exact H2.
      + eapply runs_split4; try eassumption. { eapply IH; exact H2. } eapply IH; exact H4.
    - set (A := mkRect _ _ (y1 r) _). set (B := mkRect _ _ _ (y2 r)).
      assert (HAB : splits r A B) by (split; [exact Hns|right; auto]).
      intro H. apply two_stage in H.
      destruct H as [(e & H1 & ->)|[(m & l1 & l2 & s1 & s2 & H1 & H2 & H3 & ->)|
        [(m & l1 & l2 & l3 & s1 & s2 & e & H1 & H2 & H3 & -> & ->)|
         (m & l1 & l2 & l3 & m2 & l4 & s1 & s2 & s3 & s4 & H1 & H2 & H3 & H4 & ->)]]].
      + eapply runs_split1; eassumption.
      + eapply runs_split2; try eassumption. eapply IH; exact H2.
      + eapply runs_split3; try eassumption. eapply IH; exact H2.
      + eapply runs_split4; try eassumption. { eapply IH; exact H2. } eapply IH; exact H4.
  Qed.

  Lemma decide_runs v : forall n r phi s s' l o,
    decideRefinement E v n r phi s = (s', l, o) -> runs v n r phi l o.
  Proof.
    induction n as [|n IH]; intros r phi s s' l o; cbn [decideRefinement].
    { unfold out_of_fuel. intros [= <- <- <-]. constructor. }
    destruct v.
    - apply simple_runs; [exact IH|discriminate|cbn; tauto].
    - unfold decide_newton. rewrite <- andb_assoc.
      destruct (Qltb_spec TWO_PI phi) as [Hp|Hp]; cbn [andb].
      2:{ apply simple_runs; [exact IH|discriminate|cbn; lra]. }
      destruct (Qltb (deltaRe r) (epsRe E) && Qltb (deltaIm r) (epsIm E)) eqn:Hs.
      { apply small_test in Hs. unfold getRootFromRectangle. intro H.
        apply emit_advance_inv in H. destruct H as (-> & -> & ->).
        apply runs_report; [discriminate|lra|assumption]. }
      assert (Hns : ~ small r) by (rewrite <- small_test; congruence).
      destruct (Qltb phi FOUR_PI && Qltb (deltaRe r) (1 # 10) && Qltb (deltaIm r) (1 # 10)) eqn:Hz.
      + rewrite !andb_true_iff, !Qltb_true in Hz. intro H. apply newton_branch_inv in H.
        apply runs_newton; try assumption; try reflexivity. cbn; tauto.
      + apply simple_runs; [exact IH|discriminate|]. cbn. intros (_ & Z1 & Z2 & Z3).
        apply Qltb_true in Z1, Z2, Z3. rewrite Z1, Z2, Z3 in Hz. discriminate.
    - unfold decide_poly. destruct (e_has_df E) eqn:Hdf; cbn [negb].
      2:{ unfold raise. intros [= <- <- <-]. apply runs_nodf; auto. }
      rewrite <- andb_assoc.
      destruct (Qltb_spec TWO_PI phi) as [Hp|Hp]; cbn [andb].
      2:{ apply simple_runs; [exact IH|auto|cbn; lra]. }
      destruct (Qltb (deltaRe r) (epsRe E) && Qltb (deltaIm r) (epsIm E)) eqn:Hs.
      { apply small_test in Hs. unfold getRootFromRectangle. intro H.
        apply emit_advance_inv in H. destruct H as (-> & -> & ->).
        apply runs_report; [auto|lra|assumption]. }
      assert (Hns : ~ small r) by (rewrite <- small_test; congruence).
      destruct (Qltb_spec phi MAX_PHASE) as [Hm|Hm].
      + intro H. cbv zeta in H. apply runs_poly; try assumption; try reflexivity.
        { cbn; tauto. }
        apply mbind_inv in H.
        destruct H as [(e & H & ->)|[[H ->]|(s1 & l1 & ms & l2 & H1 & H2 & ->)]].
        * apply moments_from_inv in H. destruct H as ([b|x] & H & Hx); [discriminate|].
          injection Hx as ->. exists l, (Err x). auto.
        * apply moments_from_inv in H. destruct H as ([b|x] & H & Hx); discriminate.
        * apply moments_from_inv in H1. destruct H1 as ([b|x] & H1 & Hx); [|discriminate].
          injection Hx as <-. exists l1, (Ok ms). split; [exact H1|].
          destruct (e_polyroots E _) as [rts|e].
          -- apply emit_advance_inv in H2. destruct H2 as (-> & -> & ->). auto.
          -- unfold raise in H2. injection H2 as <- <- <-. rewrite app_nil_r. auto.
      + apply simple_runs; [exact IH|auto|cbn; lra].
  Qed.

  (** calcRoots = one estimate, then a run. *)
  Lemma calcRoots_runs v n r s s' l o :
    calcRoots E v n r s = (s', l, o) ->
    (exists e, est 0 r l (Err e) /\ o = Raised e) \/
    (exists m l1 l2, est 0 r l1 (Ok m) /\ runs v n r (re m) l2 o /\ l = l1 ++ l2).
  Proof.
    unfold calcRoots. intro H. apply mbind_inv in H.
    destruct H as [(e & H & ->)|[[H ->]|(s1 & l1 & m & l2 & H1 & H2 & ->)]].
    - apply calcMoment_inv in H. destruct H as ([b|x] & H & Hx); [discriminate|].
      injection Hx as ->. left; eauto.
    - apply calcMoment_inv in H. destruct H as ([b|x] & H & Hx); discriminate.
    - apply calcMoment_inv in H1. destruct H1 as ([b|x] & H1 & Hx); [|discriminate].
      injection Hx as <-. apply decide_runs in H2. right. exists m, l1, l2. auto.
  Qed.
End Runs.
