(** The refinement in floating point: runs, tiling, correctness, termination. *)
From Coq Require Import Reals Qreals.
From Verif Require Import PyBase Rounding_Model Rounding_Proofs Poly_Model Refine_Model Refine_Spec
  Refine_Proofs Refine_Proofs2 Zeros_Spec Zeros_Proofs Refine_Proofs3 Float_Model Float_Spec.
From Coq Require Import Lqa.
Open Scope Z_scope.

Section FloatRuns.
  Context {S : Type} (rnd : Q -> Q) (tolRe tolIm : Q) (E : env S).
  Hypothesis HR : rounding rnd.
  Hypothesis T1 : (0 < tolRe)%Q.
  Hypothesis T2 : (0 < tolIm)%Q.
  Hypothesis F1 : representable rnd tolRe.
  Hypothesis F2 : representable rnd tolIm.

  Notation mid := (fmid rnd).
  Notation frep := (representable rnd).
  Notation dRe := (fdeltaRe rnd).
  Notation dIm := (fdeltaIm rnd).

  (** ** Rounding *)
  Lemma rnd_eq x y : (x == y -> rnd x == rnd y)%Q.
  Proof. intro H. apply Qle_antisym; apply (rnd_mono _ HR); rewrite H; apply Qle_refl. Qed.
  Lemma rnd_below x t : frep t -> (rnd x < t -> x < t)%Q.
  Proof.
    intros Ht H. destruct (Qlt_le_dec x t) as [K|K]; [exact K|]. exfalso.
    apply (rnd_mono _ HR) in K. unfold representable in Ht. rewrite Ht in K. lra.
  Qed.
  Lemma rnd_le x t : frep t -> (x <= t -> rnd x <= t)%Q.
  Proof. intros Ht H. apply (rnd_mono _ HR) in H. unfold representable in Ht. rewrite Ht in H. exact H. Qed.
  Lemma rnd_ge x t : frep t -> (t <= x -> t <= rnd x)%Q.
  Proof. intros Ht H. apply (rnd_mono _ HR) in H. unfold representable in Ht. rewrite Ht in H. exact H. Qed.
  Lemma rnd_rep x : frep (rnd x).
  Proof. apply (rnd_idem _ HR). Qed.
  Lemma rep_eq x y : (x == y)%Q -> frep x -> frep y.
  Proof. intros H K. unfold representable in *. pose proof (rnd_eq _ _ H). lra. Qed.

  Lemma fmid_between a b : frep a -> frep b -> (a <= b)%Q -> (a <= mid a b <= b)%Q /\ frep (mid a b).
  Proof.
    intros Ha Hb H. split; [|apply rnd_rep]. unfold fmid.
    assert (L : (2 * a <= rnd (a + b))%Q) by (apply rnd_ge; [apply (rnd_double _ HR), Ha|lra]).
    assert (U : (rnd (a + b) <= 2 * b)%Q) by (apply rnd_le; [apply (rnd_double _ HR), Hb|lra]).
    split.
    - apply rnd_ge; [exact Ha|]. apply Qle_shift_div_l; [reflexivity|lra].
    - apply rnd_le; [exact Hb|]. apply Qle_shift_div_r; [reflexivity|lra].
  Qed.

  (** ** Runs *)
  Definition fsmall (r : rect) : Prop := (dRe r < tolRe /\ dIm r < tolIm)%Q.

  Lemma fsmall_test r : Qltb (dRe r) tolRe && Qltb (dIm r) tolIm = true <-> fsmall r.
  Proof. rewrite andb_true_iff, !Qltb_true. unfold fsmall. tauto. Qed.

  Lemma fsmall_sides r : fsmall r -> sides_below tolRe tolIm r.
  Proof.
    intros [A B]. split; [apply (rnd_below _ _ F1 A)|apply (rnd_below _ _ F2 B)].
  Qed.

  Definition fsplits (r A B : rect) : Prop :=
    ~ fsmall r /\
    (((rnd (dIm r / tolIm) < rnd (dRe r / tolRe))%Q /\
      A = mkRect (x1 r) (mid (x1 r) (x2 r)) (y1 r) (y2 r) /\
      B = mkRect (mid (x1 r) (x2 r)) (x2 r) (y1 r) (y2 r)) \/
     ((rnd (dRe r / tolRe) <= rnd (dIm r / tolIm))%Q /\
      A = mkRect (x1 r) (x2 r) (y1 r) (mid (y1 r) (y2 r)) /\
      B = mkRect (x1 r) (x2 r) (mid (y1 r) (y2 r)) (y2 r))).

  (** What is needed of a run of a solver branch (Newton, polynomial). *)
  Definition solver_log (r : rect) (l : list event) (o : outcome unit) : Prop :=
    (handled l = [] \/ handled l = [r]) /\ (o = Done tt -> handled l = [r]) /\
    reported l = [] /\ estimated l = [] /\ o <> OutOfFuel.

  Inductive fruns (v : variant) : nat -> rect -> Q -> list event -> outcome unit -> Prop :=
  | fruns_fuel r phi : fruns v 0 r phi [] OutOfFuel
  | fruns_nodf n r phi : v = PolyV -> fruns v (Datatypes.S n) r phi [] (Raised ValueError)
  | fruns_discard n r phi : (phi < TWO_PI)%Q ->
      fruns v (Datatypes.S n) r phi (EvDiscard r phi :: adv E (farea rnd r)) (Done tt)
  | fruns_report n r phi : (TWO_PI <= phi)%Q -> fsmall r ->
      fruns v (Datatypes.S n) r phi
        (EvReport r phi :: EvRoot (fcenter rnd r, round_half_even phi) :: adv E (dRe r * (0 - 0))%Q) (Done tt)
  | fruns_solver n r phi l o : v <> Simple -> (TWO_PI < phi)%Q -> solver_log r l o ->
      fruns v (Datatypes.S n) r phi l o
  | fruns_split1 n r phi A B l e : (TWO_PI <= phi)%Q -> fsplits r A B ->
      est E 0 A l (Err e) -> fruns v (Datatypes.S n) r phi l (Raised e)
  | fruns_split2 n r phi A B l1 m l2 o : (TWO_PI <= phi)%Q -> fsplits r A B ->
      est E 0 A l1 (Ok m) -> fruns v n A (re m) l2 o -> o <> Done tt ->
      fruns v (Datatypes.S n) r phi (l1 ++ l2) o
  | fruns_split3 n r phi A B l1 m l2 l3 e : (TWO_PI <= phi)%Q -> fsplits r A B ->
      est E 0 A l1 (Ok m) -> fruns v n A (re m) l2 (Done tt) ->
      est E 0 B l3 (Err e) -> fruns v (Datatypes.S n) r phi (l1 ++ l2 ++ l3) (Raised e)
  | fruns_split4 n r phi A B l1 m l2 l3 m2 l4 o : (TWO_PI <= phi)%Q -> fsplits r A B ->
      est E 0 A l1 (Ok m) -> fruns v n A (re m) l2 (Done tt) ->
      est E 0 B l3 (Ok m2) -> fruns v n B (re m2) l4 o ->
      fruns v (Datatypes.S n) r phi (l1 ++ l2 ++ l3 ++ l4) o.

  Notation fdecide := (fdecideRefinement rnd tolRe tolIm E).

  Lemma fsimple_runs v n r phi s s' l o :
    (forall r phi s s' l o, fdecide v n r phi s = (s', l, o) -> fruns v n r phi l o) ->
    fdecide_simple rnd tolRe tolIm E (fdecide v n) r phi s = (s', l, o) ->
    fruns v (Datatypes.S n) r phi l o.
  Proof.
    intros IH. unfold fdecide_simple.
    destruct (Qltb_spec phi TWO_PI) as [Hp|Hp].
    { intro H. apply emit_advance_inv in H. destruct H as (-> & -> & ->).
      apply fruns_discard; assumption. }
    destruct (_ && _) eqn:Hs.
    { apply fsmall_test in Hs. unfold fgetRoot. intro H.
      apply emit_advance_inv in H. destruct H as (-> & -> & ->). apply fruns_report; assumption. }
    assert (Hns : ~ fsmall r).
    { rewrite <- fsmall_test. congruence. }
    destruct (Qltb_spec (rnd (dIm r / tolIm)) (rnd (dRe r / tolRe))) as [Hr|Hr]; cbv zeta.
    - set (A := mkRect (x1 r) _ _ _). set (B := mkRect _ (x2 r) _ _).
      assert (HAB : fsplits r A B) by (split; [exact Hns|left; auto]).
      intro H. apply two_stage in H.
      destruct H as [(e & H1 & ->)|[(m & l1 & l2 & s1 & s2 & H1 & H2 & H3 & ->)|
        [(m & l1 & l2 & l3 & s1 & s2 & e & H1 & H2 & H3 & -> & ->)|
         (m & l1 & l2 & l3 & m2 & l4 & s1 & s2 & s3 & s4 & H1 & H2 & H3 & H4 & ->)]]].
      + eapply fruns_split1; eassumption.
      + eapply fruns_split2; try eassumption. eapply IH; exact H2.
      + eapply fruns_split3; try eassumption. eapply IH; exact H2.
      + eapply fruns_split4; try eassumption. { eapply IH; exact H2. } eapply IH; exact H4.
    - set (A := mkRect _ _ (y1 r) _). set (B := mkRect _ _ _ (y2 r)).
      assert (HAB : fsplits r A B) by (split; [exact Hns|right; auto]).
      intro H. apply two_stage in H.
      destruct H as [(e & H1 & ->)|[(m & l1 & l2 & s1 & s2 & H1 & H2 & H3 & ->)|
        [(m & l1 & l2 & l3 & s1 & s2 & e & H1 & H2 & H3 & -> & ->)|
         (m & l1 & l2 & l3 & m2 & l4 & s1 & s2 & s3 & s4 & H1 & H2 & H3 & H4 & ->)]]].
      + eapply fruns_split1; eassumption.
      + eapply fruns_split2; try eassumption. eapply IH; exact H2.
      + eapply fruns_split3; try eassumption. eapply IH; exact H2.
      + eapply fruns_split4; try eassumption. { eapply IH; exact H2. } eapply IH; exact H4.
  Qed.

  Lemma roots_log rs (a : Q) : handled (map EvRoot rs ++ adv E a) = [] /\
    reported (map EvRoot rs ++ adv E a) = [] /\ estimated (map EvRoot rs ++ adv E a) = [].
  Proof.
    destruct (adv_logs E a) as (D1 & D2 & _ & D3 & _).
    rewrite handled_app, reported_app, estimated_app, handled_roots, reported_roots, estimated_roots, D1, D2, D3.
    auto.
  Qed.

  Lemma fnewton_inv r phi s s' l o :
    fnewton_branch rnd E r phi s = (s', l, o) -> solver_log r l o.
  Proof.
    assert (G : forall rs x s s' l o,
      mseq (emit (EvNewton r phi :: map EvRoot rs)) (mseq (advance E (farea rnd r))
        (match x with None => ret tt | Some y => if catches_RuntimeError y then ret tt else raise y end)) s = (s', l, o) ->
      solver_log r l o).
    { intros rs x t t' l' o'. unfold mseq, mbind, emit, advance.
      destruct (roots_log rs (farea rnd r)) as (D1 & D2 & D3).
      assert (K : forall o'', o'' <> OutOfFuel ->
        solver_log r ((EvNewton r phi :: map EvRoot rs) ++ adv E (farea rnd r)) o'').
      { intros o'' N. cbn [app].
        change (EvNewton r phi :: ?m) with ([EvNewton r phi] ++ m).
        unfold solver_log. rewrite handled_app, reported_app, estimated_app, D1, D2, D3.
        cbn. repeat split; auto. }
      unfold ret, raise. destruct x as [[]|]; intros [= <- <- <-]; rewrite app_nil_r; apply K; discriminate. }
    unfold fnewton_branch. cbv zeta. destruct (e_secant E _ _) as [z|e].
    - destruct (e_has_df E).
      + destruct (e_newton E _) as [w|e].
        * apply (G [(z, 1); (w, 1)] None).
        * apply (G [(z, 1)] (Some e)).
      + apply (G [(z, 1)] None).
    - apply (G [] (Some e)).
  Qed.

  Lemma fdecide_runs v : forall n r phi s s' l o,
    fdecide v n r phi s = (s', l, o) -> fruns v n r phi l o.
  Proof.
    induction n as [|n IH]; intros r phi s s' l o; cbn [fdecideRefinement].
    { unfold out_of_fuel. intros [= <- <- <-]. constructor. }
    destruct v.
    - apply fsimple_runs; exact IH.
    - unfold fdecide_newton. rewrite <- andb_assoc.
      destruct (Qltb_spec TWO_PI phi) as [Hp|Hp]; cbn [andb].
      2:{ apply fsimple_runs; exact IH. }
      destruct (Qltb (dRe r) tolRe && Qltb (dIm r) tolIm) eqn:Hs.
      { apply fsmall_test in Hs. unfold fgetRoot. intro H.
        apply emit_advance_inv in H. destruct H as (-> & -> & ->).
        apply fruns_report; [lra|assumption]. }
      destruct (Qltb phi FOUR_PI && Qltb (dRe r) (rnd (1 # 10)) && Qltb (dIm r) (rnd (1 # 10))).
      + intro H. apply fnewton_inv in H. apply fruns_solver; [discriminate|exact Hp|exact H].
      + apply fsimple_runs; exact IH.
    - unfold fdecide_poly. destruct (e_has_df E) eqn:Hdf; cbn [negb].
      2:{ unfold raise. intros [= <- <- <-]. apply fruns_nodf; auto. }
      rewrite <- andb_assoc.
      destruct (Qltb_spec TWO_PI phi) as [Hp|Hp]; cbn [andb].
      2:{ apply fsimple_runs; exact IH. }
      destruct (Qltb (dRe r) tolRe && Qltb (dIm r) tolIm) eqn:Hs.
      { apply fsmall_test in Hs. unfold fgetRoot. intro H.
        apply emit_advance_inv in H. destruct H as (-> & -> & ->).
        apply fruns_report; [lra|assumption]. }
      destruct (Qltb_spec phi MAX_PHASE) as [Hm|Hm].
      + intro H. cbv zeta in H. apply fruns_solver; [discriminate|exact Hp|].
        apply mbind_inv in H.
        destruct H as [(e & H & ->)|[[H ->]|(s1 & l1 & ms & l2 & H1 & H2 & ->)]].
        * apply moments_from_inv in H. destruct H as ([b|x] & H & Hx); [discriminate|].
          injection Hx as ->. apply moms_logs in H; [|lia]. destruct H as (A1 & A2 & A3 & A4).
          unfold solver_log. rewrite A1, A2, A4. repeat split; auto; discriminate.
        * apply moments_from_inv in H. destruct H as ([b|x] & H & Hx); discriminate.
        * apply moments_from_inv in H1. destruct H1 as ([b|x] & H1 & Hx); [|discriminate].
          injection Hx as <-. apply moms_logs in H1; [|lia]. destruct H1 as (A1 & A2 & A3 & A4).
          unfold solver_log. rewrite handled_app, reported_app, estimated_app, A1, A2, A4. cbn [app].
          destruct (e_polyroots E _) as [rts|e].
          -- apply emit_advance_inv in H2. destruct H2 as (-> & -> & ->). cbn [app].
             destruct (roots_log (group_roots (e_precision E) rts) (farea rnd r)) as (D1 & D2 & D3).
             change (EvPoly r phi :: ?m) with ([EvPoly r phi] ++ m).
             rewrite handled_app, reported_app, estimated_app, D1, D2, D3. cbn.
             repeat split; auto; discriminate.
          -- unfold raise in H2. injection H2 as <- <- <-. repeat split; auto; discriminate.
      + apply fsimple_runs; exact IH.
  Qed.

  Lemma fcalcRoots_runs v n r s s' l o :
    fcalcRoots rnd tolRe tolIm E v n r s = (s', l, o) ->
    (exists e, est E 0 r l (Err e) /\ o = Raised e) \/
    (exists m l1 l2, est E 0 r l1 (Ok m) /\ fruns v n r (re m) l2 o /\ l = l1 ++ l2).
  Proof.
    unfold fcalcRoots. intro H. apply mbind_inv in H.
    destruct H as [(e & H & ->)|[[H ->]|(s1 & l1 & m & l2 & H1 & H2 & ->)]].
    - apply calcMoment_inv in H. destruct H as ([b|x] & H & Hx); [discriminate|].
      injection Hx as ->. left; eauto.
    - apply calcMoment_inv in H. destruct H as ([b|x] & H & Hx); discriminate.
    - apply calcMoment_inv in H1. destruct H1 as ([b|x] & H1 & Hx); [|discriminate].
      injection Hx as <-. apply fdecide_runs in H2. right. exists m, l1, l2. auto.
  Qed.

  (** ** Geometry *)
  Lemma fsplits_geometry r A B : fsplits r A B -> proper r -> float_rect rnd r ->
    proper A /\ proper B /\ float_rect rnd A /\ float_rect rnd B /\
    sub_rect A r /\ sub_rect B r /\ interiors_disjoint A B /\
    (size A + size B == size r)%Q /\
    (forall z, inside r z -> inside A z \/ inside B z).
  Proof.
    intros [_ [(_ & -> & ->)|(_ & -> & ->)]] [Hx Hy] (R1 & R2 & R3 & R4);
      destruct (fmid_between _ _ R1 R2 Hx) as [Mx Fx]; destruct (fmid_between _ _ R3 R4 Hy) as [My Fy].
    - set (m := mid (x1 r) (x2 r)) in *.
      unfold proper, float_rect, sub_rect, interiors_disjoint, strictly_inside, inside, size.
      cbn [x1 x2 y1 y2].
      split; [lra|]. split; [lra|]. split; [auto|]. split; [auto|].
      split; [lra|]. split; [lra|]. split; [intros z; lra|]. split; [ring|].
      intros z Hz. destruct (Qlt_le_dec (re z) m); [left|right]; lra.
    - set (m := mid (y1 r) (y2 r)) in *.
      unfold proper, float_rect, sub_rect, interiors_disjoint, strictly_inside, inside, size.
      cbn [x1 x2 y1 y2].
      split; [lra|]. split; [lra|]. split; [auto|]. split; [auto|].
      split; [lra|]. split; [lra|]. split; [intros z; lra|]. split; [ring|].
      intros z Hz. destruct (Qlt_le_dec (im z) m); [left|right]; lra.
  Qed.

  Lemma fFOP_app {A} (R : A -> A -> Prop) l1 l2 :
    ForallOrdPairs R l1 -> ForallOrdPairs R l2 -> (forall a b, In a l1 -> In b l2 -> R a b) ->
    ForallOrdPairs R (l1 ++ l2).
  Proof.
    induction 1 as [|a l1 Ha H1 IH]; intros H2 H; [exact H2|]. cbn. constructor.
    - rewrite Forall_forall in *. intros b Hb. apply in_app_or in Hb. destruct Hb as [Hb|Hb]; [auto|].
      apply H; [left; reflexivity|exact Hb].
    - apply IH; [exact H2|]. intros x b Hx Hb. apply H; [right; exact Hx|exact Hb].
  Qed.

  Lemma ftiles_split r A B la lb : fsplits r A B -> proper r -> float_rect rnd r ->
    tiles A la -> tiles B lb -> tiles r (la ++ lb).
  Proof.
    intros HS Hr Hf (A1 & A2 & A3 & A4) (B1 & B2 & B3 & B4).
    destruct (fsplits_geometry _ _ _ HS Hr Hf) as (PA & PB & _ & _ & SA & SB & D & AR & C).
    split; [|split; [|split]].
    - intros z Hz. destruct (C z Hz) as [H|H].
      + destruct (A1 z H) as (a & Ha & Hz'). exists a. split; [apply in_or_app; auto|exact Hz'].
      + destruct (B1 z H) as (a & Ha & Hz'). exists a. split; [apply in_or_app; auto|exact Hz'].
    - intros a H. apply in_app_or in H. destruct H as [H|H].
      + split; [eapply sub_rect_trans; [apply A2, H|exact SA]|apply A2, H].
      + split; [eapply sub_rect_trans; [apply B2, H|exact SB]|apply B2, H].
    - apply fFOP_app; [exact A3|exact B3|]. intros a b Ha Hb z [Z1 Z2].
      apply (D z). split; [apply (sub_rect_strict a)|apply (sub_rect_strict b)]; try assumption;
        [apply A2, Ha|apply B2, Hb].
    - rewrite map_app, Qsum_app, A4, B4. exact AR.
  Qed.

  Lemma ftiles_one r : proper r -> tiles r [r].
  Proof.
    intro Hr. split; [|split; [|split]].
    - intros z Hz. exists r. split; [left; reflexivity|exact Hz].
    - intros a [<-|[]]. split; [apply sub_rect_refl|exact Hr].
    - constructor; [constructor|constructor].
    - cbn. ring.
  Qed.

  Ltac logs :=
    repeat match goal with
    | H : est _ _ _ _ _ |- _ => apply est_logs in H;
        destruct H as (?Lh & ?Lr & ?La & ?Le & ?Lroots & ?Lin)
    end.

  Lemma fruns_tiles v n r phi l o : fruns v n r phi l o -> o = Done tt -> proper r ->
    float_rect rnd r -> tiles r (handled l) /\ forall q, In q (handled l) -> float_rect rnd q.
  Proof.
    induction 1 as [r phi|n r phi Hv|n r phi Hp|n r phi Hp Hs|n r phi l o Hv Hp HS
      |n r phi A B l e Hp HAB H1
      |n r phi A B l1 m l2 o Hp HAB H1 H2 IH2 Ho
      |n r phi A B l1 m l2 l3 e Hp HAB H1 H2 IH2 H3
      |n r phi A B l1 m l2 l3 m2 l4 o Hp HAB H1 H2 IH2 H3 H4 IH4];
      intros Hd Hr Hf; try discriminate; try contradiction.
    - change (EvDiscard r phi :: ?l) with ([EvDiscard r phi] ++ l).
      rewrite handled_app. destruct (adv_logs E (farea rnd r)) as (-> & _).
      split; [apply ftiles_one, Hr|]. intros q [<-|[]]. exact Hf.
    - change (EvReport r phi :: ?x :: ?l) with ([EvReport r phi; x] ++ l).
      rewrite handled_app. destruct (adv_logs E (dRe r * (0 - 0))) as (-> & _).
      split; [apply ftiles_one, Hr|]. intros q [<-|[]]. exact Hf.
    - destruct HS as (_ & HS & _). rewrite HS by exact Hd.
      split; [apply ftiles_one, Hr|]. intros q [<-|[]]. exact Hf.
    - logs. rewrite !handled_app, Lh, Lh0. cbn [app].
      destruct (fsplits_geometry _ _ _ HAB Hr Hf) as (PA & PB & FA & FB & _).
      destruct (IH2 eq_refl PA FA) as [I1 I2]. destruct (IH4 Hd PB FB) as [I3 I4].
      split; [eapply ftiles_split; eassumption|].
      intros q Hq. apply in_app_or in Hq. destruct Hq; auto.
  Qed.

  (** ** Correctness relative to the estimates *)
  Variable zeros : list point.

  Lemma fsplits_zin r A B z : fsplits r A B -> proper r -> float_rect rnd r ->
    (zin r z <-> zin A z \/ zin B z) /\ (zstrict A z -> ~ zin B z).
  Proof.
    intros [_ [(_ & -> & ->)|(_ & -> & ->)]] [Hx Hy] (R1 & R2 & R3 & R4);
      destruct (fmid_between _ _ R1 R2 Hx) as [[Mx Mx'] _]; destruct (fmid_between _ _ R3 R4 Hy) as [[My My'] _];
      apply Qle_Rle in Hx; apply Qle_Rle in Hy; apply Qle_Rle in Mx; apply Qle_Rle in My;
      apply Qle_Rle in Mx'; apply Qle_Rle in My';
      unfold zin, zstrict; cbn [x1 x2 y1 y2].
    - set (m := Q2R (mid (x1 r) (x2 r))) in *. clearbody m. Lra.lra.
    - set (m := Q2R (mid (y1 r) (y2 r))) in *. clearbody m. Lra.lra.
  Qed.

  Lemma fcount_split r A B : fsplits r A B -> proper r -> float_rect rnd r -> avoids zeros A ->
    count zeros r = (count zeros A + count zeros B)%nat.
  Proof.
    intros HS Hr Hf HA. unfold count. apply filter_length_split; intros z Hz.
    - destruct (fsplits_zin r A B z HS Hr Hf) as [H _].
      destruct (zinb r z) eqn:C.
      + apply zinb_true, H in C. symmetry. rewrite orb_true_iff, !zinb_true. exact C.
      + apply zinb_false in C. symmetry. rewrite orb_false_iff, !zinb_false. tauto.
    - intro H. apply zinb_true in H. apply zinb_false.
      destruct (fsplits_zin r A B z HS Hr Hf) as [_ HB]. apply HB, HA; assumption.
  Qed.

  Lemma fruns_correct n r phi l o : fruns Simple n r phi l o ->
    proper r -> float_rect rnd r ->
    good_estimate phi (count zeros r) -> good_run zeros l -> o <> OutOfFuel ->
    o = Done tt /\
    located l = map (fun q => (fcenter rnd q, Z.of_nat (count zeros q))) (reported l) /\
    (forall q, In q (reported l) -> sub_rect q r /\ proper q /\ float_rect rnd q /\
       sides_below tolRe tolIm q /\ (1 <= count zeros q)%nat) /\
    (forall z, In z zeros -> zin r z -> exists q, In q (reported l) /\ zin q z) /\
    orders_sum zeros (reported l) = count zeros r.
  Proof.
    remember Simple as v eqn:Ev. intro H. revert Ev.
    induction H as [r phi|n r phi Hv|n r phi Hp|n r phi Hp Hs|n r phi l o Hv Hp HS
      |n r phi A B l e Hp HAB H1
      |n r phi A B l1 m l2 o Hp HAB H1 H2 IH2 Ho
      |n r phi A B l1 m l2 l3 e Hp HAB H1 H2 IH2 H3
      |n r phi A B l1 m l2 l3 m2 l4 o Hp HAB H1 H2 IH2 H3 H4 IH4];
      intros Ev Hr Hfl Hg Hgr Hf; try congruence.
    - change (EvDiscard r phi :: ?l) with ([EvDiscard r phi] ++ l).
      rewrite reported_app, located_app. unfold located at 2.
      destruct (adv_logs E (farea rnd r)) as (_ & -> & _ & _ & ->). cbn.
      pose proof (good_empty _ _ Hg Hp) as H0. rewrite H0.
      split; [reflexivity|]. split; [reflexivity|]. split; [intros q []|].
      split; [|reflexivity]. intros z Hz Hin. exfalso. eapply count_zero; eassumption.
    - change (EvReport r phi :: ?x :: ?l) with ([EvReport r phi; x] ++ l).
      rewrite reported_app, located_app. unfold located at 2.
      destruct (adv_logs E (dRe r * (0 - 0))) as (_ & -> & _ & _ & ->).
      destruct (good_nonneg_turn _ _ Hg Hp) as [Hc Hrd]. rewrite Hrd.
      cbn [app located filter roots_of flat_map snd reported map].
      destruct (Z.eqb_spec (Z.of_nat (count zeros r)) 0) as [C|_]; [lia|]. cbn.
      split; [reflexivity|]. split; [reflexivity|].
      split. { intros q [<-|[]]. split; [apply sub_rect_refl|]. repeat (split; [assumption|]).
        split; [apply fsmall_sides, Hs|exact Hc]. }
      split. { intros z Hz Hin. exists r. auto. }
      unfold orders_sum. cbn. lia.
    - destruct (good_est E _ _ _ _ H1 Hgr) as (_ & m' & C & _). discriminate.
    - apply good_app in Hgr. destruct Hgr as [G1 G2].
      destruct (fsplits_geometry _ _ _ HAB Hr Hfl) as (PA & PB & FA & FB & SA & SB & _).
      destruct (good_est E _ _ _ _ H1 G1) as (_ & m' & [= <-] & GA).
      destruct (IH2 Ev PA FA GA G2 Hf) as (-> & _). contradiction.
    - apply good_app in Hgr. destruct Hgr as [_ G]. apply good_app in G. destruct G as [_ G].
      destruct (good_est E _ _ _ _ H3 G) as (_ & m' & C & _). discriminate.
    - apply good_app in Hgr. destruct Hgr as [G1 G]. apply good_app in G. destruct G as [G2 G].
      apply good_app in G. destruct G as [G3 G4].
      destruct (fsplits_geometry _ _ _ HAB Hr Hfl) as (PA & PB & FA & FB & SA & SB & _).
      destruct (good_est E _ _ _ _ H1 G1) as (AA & m' & [= <-] & GA).
      destruct (good_est E _ _ _ _ H3 G3) as (AB & m' & [= <-] & GB).
      destruct (IH2 Ev PA FA GA G2 ltac:(discriminate)) as (_ & L2 & Q2 & Z2 & O2).
      destruct (IH4 Ev PB FB GB G4 Hf) as (Ho & L4 & Q4 & Z4 & O4).
      rewrite !reported_app, !located_app.
      rewrite (est_located E _ _ _ _ H1), (est_located E _ _ _ _ H3).
      pose proof (est_logs E _ _ _ _ H1) as (_ & R1 & _).
      pose proof (est_logs E _ _ _ _ H3) as (_ & R3 & _). rewrite R1, R3. cbn [app].
      split; [exact Ho|]. split; [rewrite map_app, L2, L4; reflexivity|].
      split. { intros q Hq. apply in_app_or in Hq. destruct Hq as [Hq|Hq].
        - destruct (Q2 q Hq) as (A1 & A2). split; [eapply sub_rect_trans; eassumption|exact A2].
        - destruct (Q4 q Hq) as (A1 & A2). split; [eapply sub_rect_trans; eassumption|exact A2]. }
      split. { intros z Hzz Hin. destruct (fsplits_zin r A B z HAB Hr Hfl) as [[HH _] _].
        destruct (HH Hin) as [Hi|Hi].
        - destruct (Z2 z Hzz Hi) as (q & Hq & Hq'). exists q. split; [apply in_or_app; auto|exact Hq'].
        - destruct (Z4 z Hzz Hi) as (q & Hq & Hq'). exists q. split; [apply in_or_app; auto|exact Hq']. }
      rewrite orders_sum_app, O2, O4, (fcount_split r A B HAB Hr Hfl AA). reflexivity.
  Qed.

  Lemma fnear_center q z : proper q -> float_rect rnd q -> sides_below tolRe tolIm q -> zin q z ->
    fnear tolRe tolIm (fcenter rnd q) z.
  Proof.
    intros [Hx Hy] (R1 & R2 & R3 & R4) [S1 S2] [Z1 Z2]. unfold fnear, fcenter. cbn [re im fst snd].
    destruct (fmid_between _ _ R1 R2 Hx) as [[Mx Mx'] _]; destruct (fmid_between _ _ R3 R4 Hy) as [[My My'] _].
    apply Qle_Rle in Mx, Mx', My, My'.
    apply Qlt_Rlt in S1, S2. rewrite Q2R_minus in S1, S2.
    split; apply Rabs_def1; Lra.lra.
  Qed.
End FloatRuns.
