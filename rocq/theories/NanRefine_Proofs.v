(** * Proofs about phases that are not numbers *)
From Verif Require Import PyBase Rounding_Model Poly_Model Refine_Model Refine_Spec Refine_Proofs Nan_Model Nan_Spec NanRefine_Model NanRefine_Spec.
From Coq Require Import Lqa.
Open Scope Z_scope.
Open Scope list_scope.

Lemma as_events_app l1 l2 : as_events (l1 ++ l2) = as_events l1 ++ as_events l2.
Proof. apply flat_map_app. Qed.
Lemma as_events_old l : as_events (map Old l) = l.
Proof. induction l as [|e l IH]; cbn; [reflexivity|]. f_equal. exact IH. Qed.
Lemma ltb_as_number phi t : (0 < t)%Q -> (t < 4)%Q -> num_ltb phi (Fin t) = Qltb (as_number phi) t.
Proof.
  intros A B. destruct phi as [q| | |]; cbn; [reflexivity|..]; symmetry.
  - apply Qltb_false. lra.
  - apply Qltb_true. lra.
  - apply Qltb_false. lra.
Qed.

Section Sim.
  Context {S : Type} (E E' : env S) (phase : rect -> S -> S * list cplx * res xcplx).
  Hypothesis SF : stands_for E phase E'.
  Notation small r := (sub_tolerance (e_precision E) r).

  Lemma smallb r : Qltb (deltaRe r) (epsRe E) && Qltb (deltaIm r) (epsIm E) = true <-> small r.
  Proof. unfold sub_tolerance, deltaRe, deltaIm, epsRe, epsIm. rewrite andb_true_iff, !Qltb_true. reflexivity. Qed.

  (** The run stopped at a small rectangle inside [r] whose phase is unclear. *)
  Definition stuck (lx : list xevent) (o : outcome unit) : Prop :=
    exists l0 q phi, lx = l0 ++ [XStuck q phi] /\ small q /\ unclear phi /\
      o = Raised (match phi with NaN => ValueError | _ => OverflowError end).
  Definition sim (mx : @XM S unit) (m : @M S unit) : Prop := forall s,
    (fst (fst (mx s)) = fst (fst (m s)) /\ as_events (snd (fst (mx s))) = snd (fst (m s)) /\ snd (mx s) = snd (m s)) \/
    (stuck (snd (fst (mx s))) (snd (mx s)) /\ exists rest, snd (fst (m s)) = as_events (snd (fst (mx s))) ++ rest).

  Lemma sim_lift m : sim (lift m) m.
  Proof. intro s. left. unfold lift. destruct (m s) as [[s' l] o]. cbn. rewrite as_events_old. auto. Qed.
  Lemma sim_bind_pure {A B} (mx : @XM S A) (m : @M S B) kx k :
    (forall s, fst (fst (mx s)) = fst (fst (m s)) /\ as_events (snd (fst (mx s))) = snd (fst (m s)) /\
      match snd (mx s), snd (m s) with
      | Done a, Done b => sim (kx a) (k b)
      | Raised e, Raised e' => e = e'
      | OutOfFuel, OutOfFuel => True
      | _, _ => False
      end) -> sim (xbind mx kx) (mbind m k).
  Proof.
    intros H s. specialize (H s). unfold xbind, mbind.
    destruct (mx s) as [[s1 l1] o1], (m s) as [[s1' l1'] o1']. cbn [fst snd] in H. destruct H as (-> & <- & H).
    destruct o1 as [a|e|], o1' as [b|e'|]; try contradiction.
    - specialize (H s1'). destruct (kx a s1') as [[s2 l2] o2], (k b s1') as [[s2' l2'] o2']. cbn [fst snd] in *.
      destruct H as [(-> & <- & ->)|((l0 & q & phi & -> & H) & rest & ->)].
      + left. rewrite as_events_app. auto.
      + right. split; [exists (l1 ++ l0), q, phi; rewrite app_assoc; auto|exists rest]. cbn [fst snd]. rewrite !as_events_app, <- ?app_assoc. reflexivity.
    - subst. left. auto.
    - left. auto.
  Qed.
  Lemma sim_seq mx m kx k : sim mx m -> sim kx k -> sim (xseq mx kx) (mseq m k).
  Proof.
    intros H1 H2 s. specialize (H1 s). unfold xseq, mseq, xbind, mbind.
    destruct (mx s) as [[s1 l1] o1], (m s) as [[s1' l1'] o1']. cbn [fst snd] in H1.
    destruct H1 as [(-> & <- & ->)|((l0 & q & phi & -> & SM & U & ->) & rest & ->)].
    - destruct o1' as [[]|e|]; [|left; auto|left; auto].
      specialize (H2 s1'). destruct (kx s1') as [[s2 l2] o2], (k s1') as [[s2' l2'] o2']. cbn [fst snd] in *.
      destruct H2 as [(-> & <- & ->)|((l0 & q & phi & -> & H) & rest & ->)].
      + left. rewrite as_events_app. auto.
      + right. split; [exists (l1 ++ l0), q, phi; rewrite app_assoc; auto|exists rest]. cbn [fst snd]. rewrite !as_events_app, <- ?app_assoc. reflexivity.
    - right. cbn [fst snd]. split; [exists l0, q, phi; auto|].
      destruct o1' as [[]|e|]; cbn [fst snd]; [|exists rest; reflexivity|exists rest; reflexivity].
      destruct (k s1') as [[s2' l2'] o2']. cbn [fst snd]. exists (rest ++ l2'). rewrite app_assoc. reflexivity.
  Qed.

  Lemma prec_same : e_precision E' = e_precision E. Proof. apply SF. Qed.
  Lemma epsRe_same : epsRe E' = epsRe E. Proof. unfold epsRe. now rewrite prec_same. Qed.
  Lemma epsIm_same : epsIm E' = epsIm E. Proof. unfold epsIm. now rewrite prec_same. Qed.
  Lemma advance_same a : advance E' a = advance E a.
  Proof. unfold advance. now rewrite (proj2 (proj2 (proj2 (proj2 (proj2 (proj2 (proj2 (proj2 (proj2 (proj2 SF)))))))))). Qed.
  Lemma remove_same a b : cacheRemove E' a b = cacheRemove E a b.
  Proof. unfold cacheRemove. now rewrite (proj1 (proj2 (proj2 SF))). Qed.
  Lemma df_same : e_has_df E' = e_has_df E. Proof. apply SF. Qed.
  Lemma root_same r q : getRootFromRectangle E' r q = getRootFromRectangle E r q.
  Proof. unfold getRootFromRectangle. now rewrite advance_same. Qed.
  Lemma newton_same r q : newton_branch E' r q = newton_branch E r q.
  Proof.
    unfold newton_branch. destruct SF as (_ & _ & _ & _ & _ & -> & -> & _ & -> & _). rewrite advance_same. reflexivity.
  Qed.
  Lemma moments_same n k r s : 1 <= k -> moments_from E' k n r s = moments_from E k n r s.
  Proof.
    revert k s. induction n as [|n IH]; intros k s K; [reflexivity|]. cbn [moments_from]. unfold mbind, calcMoment.
    rewrite (proj1 (proj2 SF)) by lia. destruct (e_est E k r s) as [[s1 zs] [m|e]]; [|reflexivity].
    rewrite IH by lia. reflexivity.
  Qed.

  Lemma moment_sim r (kx : num -> XM unit) (k : Q -> @M S unit) :
    (forall phi, sim (kx phi) (k (as_number phi))) -> sim (xbind (xrefined phase r) kx) (mbind (calculateRefinedMoment E' r) k).
  Proof.
    intro H. apply sim_bind_pure. intro s. unfold xrefined, calculateRefinedMoment, xbind, mbind, xmoment, calcMoment.
    pose proof (proj1 SF r s) as Q. destruct (phase r s) as [[s1 zs] v]. cbn [fst snd] in Q. rewrite Q.
    assert (Z : forall a, as_events (map (fun z => Old (EvRoot (z, 0))) zs ++ [XPhase r a]) =
       map (fun z => EvRoot (z, 0)) zs ++ as_events [XPhase r a]).
    { intro a. rewrite as_events_app. f_equal. rewrite <- (map_map (fun z => EvRoot (z, 0)) Old). apply as_events_old. }
    destruct v as [m|e]; cbn [fst snd xret ret]; rewrite ?app_nil_r, Z; cbn; auto.
  Qed.

  Lemma xgetRoot_sim r phi : num_ltb phi (Fin TWO_PI) = false -> small r ->
    sim (xgetRoot E r phi) (getRootFromRectangle E' r (as_number phi)).
  Proof.
    intros K SM. rewrite root_same. destruct phi as [q| | |]; cbn [xgetRoot as_number].
    - apply sim_lift.
    - intro s. right. cbn. split; [|eexists; reflexivity]. exists [], r, PInf. cbn. unfold unclear. auto.
    - discriminate K.
    - intro s. right. cbn. split; [|eexists; reflexivity]. exists [], r, NaN. cbn. unfold unclear. auto.
  Qed.
  Lemma simple_sim self self' r phi : (forall q n, sim (self q n) (self' q (as_number n))) ->
    sim (xdecide_simple E phase self r phi) (decide_simple E' self' r (as_number phi)).
  Proof.
    intro H. unfold xdecide_simple, decide_simple. rewrite epsRe_same, epsIm_same.
    rewrite <- (ltb_as_number phi TWO_PI) by reflexivity.
    destruct (num_ltb phi (Fin TWO_PI)) eqn:K.
    { apply sim_seq; [|rewrite advance_same; apply sim_lift]. intro s. left. cbn. auto. }
    destruct (Qltb (deltaRe r) (epsRe E) && Qltb (deltaIm r) (epsIm E)) eqn:SM.
    { apply xgetRoot_sim; [exact K|apply smallb; exact SM]. }
    destruct (Qltb (deltaIm r / epsIm E) (deltaRe r / epsRe E)).
    - apply moment_sim. intro phi1. apply sim_seq; [apply H|]. apply sim_seq; [rewrite remove_same; apply sim_lift|].
      apply moment_sim. intro phi2. apply sim_seq; [apply H|]. rewrite remove_same; apply sim_lift.
    - apply moment_sim. intro phi1. apply sim_seq; [apply H|]. apply sim_seq; [rewrite remove_same; apply sim_lift|].
      apply moment_sim. intro phi2. apply sim_seq; [apply H|]. rewrite remove_same; apply sim_lift.
  Qed.
  (** A small rectangle with an unclear phase ends in [xgetRoot] whatever the variant; [nan] by the inherited method. *)
  Lemma sim_nan_small self r : small r -> xdecide_simple E phase self r NaN = xgetRoot E r NaN.
  Proof. intro SM. unfold xdecide_simple. cbn [num_ltb]. rewrite (proj2 (smallb r) SM). reflexivity. Qed.
  Lemma newton_sim self self' r phi : (forall q n, sim (self q n) (self' q (as_number n))) ->
    sim (xdecide_newton E phase self r phi) (decide_newton E' self' r (as_number phi)).
  Proof.
    intro H. unfold xdecide_newton, decide_newton. rewrite epsRe_same, epsIm_same.
    rewrite <- (ltb_as_number phi FOUR_PI) by reflexivity.
    destruct phi as [q| | |].
    - cbn [as_number num_ltb number]. destruct (_ && _ && _) eqn:K1 at 1.
      + rewrite K1. apply xgetRoot_sim.
        * cbn. rewrite !andb_true_iff in K1. destruct K1 as [[K1 _] _]. apply Qltb_true in K1. apply Qltb_false. apply Qlt_le_weak, K1.
        * rewrite <- andb_assoc, andb_true_iff in K1. apply smallb, K1.
      + rewrite K1. destruct (_ && _ && _ && _) at 1 2; [rewrite newton_same; apply sim_lift|]. apply simple_sim, H.
    - change (Qltb TWO_PI (as_number PInf)) with true. cbn [num_ltb andb].
      destruct (Qltb (deltaRe r) (epsRe E) && Qltb (deltaIm r) (epsIm E)) eqn:SM.
      + apply xgetRoot_sim; [reflexivity|apply smallb, SM].
      + apply simple_sim, H.
    - change (Qltb TWO_PI (as_number NInf)) with false. cbn [num_ltb andb]. apply simple_sim, H.
    - change (Qltb TWO_PI (as_number NaN)) with true. cbn [num_ltb andb].
      destruct (Qltb (deltaRe r) (epsRe E) && Qltb (deltaIm r) (epsIm E)) eqn:SM.
      + rewrite sim_nan_small by (apply smallb, SM). apply xgetRoot_sim; [reflexivity|apply smallb, SM].
      + apply simple_sim, H.
  Qed.
  Lemma sim_ext mx m m' : (forall s, m' s = m s) -> sim mx m -> sim mx m'.
  Proof. intros X H s. rewrite X. apply H. Qed.
  Lemma poly_sim self self' r phi : (forall q n, sim (self q n) (self' q (as_number n))) ->
    sim (xdecide_poly E phase self r phi) (decide_poly E' self' r (as_number phi)).
  Proof.
    intro H. unfold xdecide_poly, decide_poly. rewrite epsRe_same, epsIm_same, df_same.
    destruct (e_has_df E); cbn [negb]; [|intro s; left; cbn; auto].
    rewrite <- (ltb_as_number phi MAX_PHASE) by reflexivity.
    destruct phi as [q| | |].
    - cbn [as_number num_ltb number]. destruct (_ && _ && _) eqn:K1 at 1.
      + rewrite K1. apply xgetRoot_sim.
        * cbn. rewrite !andb_true_iff in K1. destruct K1 as [[K1 _] _]. apply Qltb_true in K1. apply Qltb_false. apply Qlt_le_weak, K1.
        * rewrite <- andb_assoc, andb_true_iff in K1. apply smallb, K1.
      + rewrite K1. destruct (_ && _) at 1 2; [|apply simple_sim, H].
        eapply sim_ext; [|apply sim_lift]. intro s. unfold mbind at 1 2. rewrite moments_same by lia.
        destruct (moments_from E 1 _ r s) as [[s1 l1] [ms|e|]]; try reflexivity.
        rewrite prec_same, advance_same. destruct SF as (_ & _ & _ & _ & _ & _ & _ & -> & _). reflexivity.
    - change (Qltb TWO_PI (as_number PInf)) with true. cbn [num_ltb andb].
      destruct (Qltb (deltaRe r) (epsRe E) && Qltb (deltaIm r) (epsIm E)) eqn:SM.
      + apply xgetRoot_sim; [reflexivity|apply smallb, SM].
      + apply simple_sim, H.
    - change (Qltb TWO_PI (as_number NInf)) with false. cbn [num_ltb andb]. apply simple_sim, H.
    - change (Qltb TWO_PI (as_number NaN)) with true. cbn [num_ltb andb].
      destruct (Qltb (deltaRe r) (epsRe E) && Qltb (deltaIm r) (epsIm E)) eqn:SM.
      + rewrite sim_nan_small by (apply smallb, SM). apply xgetRoot_sim; [reflexivity|apply smallb, SM].
      + apply simple_sim, H.
  Qed.
  Lemma decide_sim v fuel r phi : sim (xdecideRefinement E phase v fuel r phi) (decideRefinement E' v fuel r (as_number phi)).
  Proof.
    revert r phi. induction fuel as [|n IH]; intros r phi; [intro s; left; cbn; auto|].
    destruct v; cbn [xdecideRefinement decideRefinement]; [apply simple_sim|apply newton_sim|apply poly_sim]; exact IH.
  Qed.
  Lemma calcRoots_sim v fuel r : sim (xcalcRoots E phase v fuel r) (calcRoots E' v fuel r).
  Proof.
    intro s0. unfold xcalcRoots, calcRoots. destruct SF as (_ & _ & _ & -> & -> & _).
    set (s := if e_dirty E s0 then e_reset E s0 else s0). clearbody s. revert s.
    change (sim (xbind (xmoment phase r) (fun m => xdecideRefinement E phase v fuel r (fst m)))
                (mbind (calcMoment E' 0 r) (fun m => decideRefinement E' v fuel r (re m)))).
    apply sim_bind_pure. intro s. unfold xmoment, calcMoment.
    pose proof (proj1 SF r s) as Q. destruct (phase r s) as [[s1 zs] w]. cbn [fst snd] in Q. rewrite Q.
    assert (Z : forall a, as_events (map (fun z => Old (EvRoot (z, 0))) zs ++ [XPhase r a]) =
       map (fun z => EvRoot (z, 0)) zs ++ as_events [XPhase r a]).
    { intro a. rewrite as_events_app. f_equal. rewrite <- (map_map (fun z => EvRoot (z, 0)) Old). apply as_events_old. }
    destruct w as [m|e]; cbn [fst snd]; rewrite Z; cbn; auto.
    split; [reflexivity|]. split; [reflexivity|]. destruct m as [a b]. apply decide_sim.
  Qed.
End Sim.
