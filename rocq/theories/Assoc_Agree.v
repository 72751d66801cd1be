(** A search of any algorithm whose estimator is accurate at every call that is made. *)
From Coq Require Import Reals Qreals.
From Verif Require Import PyBase Rounding_Model Rounding_Proofs Poly_Model Refine_Model Refine_Spec Zeros_Spec Zeros_Proofs
  Sum_Spec Quad_Spec Moment_Spec EndToEnd_Model EndToEnd_Spec Whole_Search Assoc_Spec.
Open Scope Z_scope.

Definition exact_enough (d : R) (zeros : list point) (order : Z) (q : rect) (zs : list cplx) (v : res cplx) : bool :=
  match zs, v with
  | [], Ok m => if Z.eqb order 0 then Qle_bool (Qabs (re m - inject_Z (Z.of_nat (count zeros q)))) (1 # 5)
      else if Rle_dec (apart (real_point m) (power_sum zeros (Z.to_nat order) q)) d then true else false
  | _, _ => false
  end.
(** The same environment, but answering as in state [s0] where [E] is wrong. *)
Definition patched {S} (d : R) (zeros : list point) (s0 : S) (E : env S) : env S :=
  mkEnv
    (fun order q s =>
       let '(s', zs, v) := e_est E order q s in
       if exact_enough d zeros order q zs v then (s', zs, v) else e_est E order q s0)
    (e_rm E) (e_dirty E) (e_reset E) (e_secant E) (e_newton E) (e_polyroots E)
    (e_has_df E) (e_precision E) (e_progress E).

Section Agree.
  Context {S : Type}.
  Variables (d : R) (zeros : list point) (P : Z * Z) (R0 : rect) (E : env S) (s0 : S) (inv : S -> Prop).
  Hypothesis HP : e_precision E = P.
  Hypothesis H0 : inv s0.
  Hypothesis Hest0 : forall q s, cell_of P R0 q -> inv s ->
    exists s' m, e_est E 0 q s = (s', [], Ok m) /\ (Qabs (re m - inject_Z (Z.of_nat (count zeros q))) <= 1 # 5)%Q /\ inv s'.
  Hypothesis Hestk : forall q k s, cell_of P R0 q -> inv s -> (count zeros q <= 3)%nat -> (1 <= k <= count zeros q)%nat ->
    exists s' m, e_est E (Z.of_nat k) q s = (s', [], Ok m) /\ (apart (real_point m) (power_sum zeros k q) <= d)%R /\ inv s'.
  Hypothesis Hrm : forall a b s, inv s -> inv (e_rm E a b s).
  Notation E' := (patched d zeros s0 E).

  Lemma patched_reliable : (forall q, cell_of P R0 q -> avoids zeros q) -> reliable E' zeros P R0.
  Proof.
    intros HA q s Hq. split; [exact (HA q Hq)|]. cbn [e_est patched].
    destruct (e_est E 0 q s) as [[s' zs] v]. destruct (exact_enough d zeros 0 q zs v) eqn:A.
    - destruct zs as [|z zs]; [|discriminate]. destruct v as [m|e]; [|discriminate].
      exists s', [], m. split; [reflexivity|]. split; [apply Qle_bool_iff, A|]. intros c [].
    - destruct (Hest0 q s0 Hq H0) as (s1 & m & E1 & E2 & _). exists s1, [], m. split; [exact E1|]. split; [exact E2|]. intros c [].
  Qed.
  Lemma patched_moments : moments_within d E' zeros P R0.
  Proof.
    intros q k s Hq Hc Hk. cbn [e_est patched].
    destruct (e_est E (Z.of_nat k) q s) as [[s' zs] v]. destruct (exact_enough d zeros (Z.of_nat k) q zs v) eqn:A.
    - destruct zs as [|z zs]; [|discriminate]. destruct v as [m|e]; [|discriminate].
      exists s', [], m. split; [reflexivity|]. split; [|intros c []]. unfold exact_enough in A.
      destruct (Z.eqb_spec (Z.of_nat k) 0) as [C|_]; [lia|]. rewrite Nat2Z.id in A. destruct (Rle_dec _ _) as [H|H]; [exact H|discriminate].
    - destruct (Hestk q k s0 Hq H0 Hc Hk) as (s1 & m & E1 & E2 & _). exists s1, [], m. split; [exact E1|]. split; [exact E2|]. intros c [].
  Qed.

  Notation agr := (@agree S False _).

  Lemma moment0_agree q s : cell_of P R0 q -> inv s ->
    agree False (calcMoment E 0 q) (calcMoment E' 0 q) s
      (fun m s' => (Qabs (re m - inject_Z (Z.of_nat (count zeros q))) <= 1 # 5)%Q /\ inv s').
  Proof.
    intros Hq HI. right. unfold calcMoment. cbn [e_est patched].
    destruct (Hest0 q s Hq HI) as (s' & m & E1 & E2 & E3). rewrite E1.
    assert (A : exact_enough d zeros 0 q [] (Ok m) = true) by (cbn; apply Qle_bool_iff, E2). rewrite A.
    split; [reflexivity|]. intros a s2 l X. injection X as <- _ <-. auto.
  Qed.
  Lemma refined_agree q s : cell_of P R0 q -> inv s ->
    agree False (calculateRefinedMoment E q) (calculateRefinedMoment E' q) s
      (fun phi s' => (Qabs (phi - inject_Z (Z.of_nat (count zeros q))) <= 1 # 5)%Q /\ inv s').
  Proof.
    intros Hq HI. unfold calculateRefinedMoment. apply (agree_bind False _ _ _ _ s _ _ (moment0_agree q s Hq HI)).
    intros m s' HM. apply agree_same. intros b s2 l X. injection X as <- _ <-. exact HM.
  Qed.
  Lemma moments_agree q : cell_of P R0 q -> (count zeros q <= 3)%nat -> forall n k s, inv s -> (1 <= k)%nat -> (k + n <= Datatypes.S (count zeros q))%nat ->
    agree False (moments_from E (Z.of_nat k) n q) (moments_from E' (Z.of_nat k) n q) s (fun _ s' => inv s').
  Proof.
    intros Hq Hc. induction n as [|n IH]; intros k s HI Hk Hn.
    - apply agree_same. intros a s' l X. injection X as <- _ _. exact HI.
    - cbn [moments_from]. apply (agree_bind False _ _ _ _ s (fun _ s' => inv s')).
      + right. unfold calcMoment. cbn [e_est patched].
        destruct (Hestk q k s Hq HI Hc ltac:(lia)) as (s' & m & E1 & E2 & E3). rewrite E1.
        assert (A : exact_enough d zeros (Z.of_nat k) q [] (Ok m) = true).
        { unfold exact_enough. destruct (Z.eqb_spec (Z.of_nat k) 0); [lia|]. rewrite Nat2Z.id. destruct (Rle_dec _ _); [reflexivity|contradiction]. }
        rewrite A. split; [reflexivity|]. intros a s2 l X. injection X as <- _ _. exact E3.
      + intros m s' HI'. replace (Z.of_nat k + 1) with (Z.of_nat (Datatypes.S k)) by lia.
        apply (agree_bind False _ _ _ _ s' _ _ (IH (Datatypes.S k) s' HI' ltac:(lia) ltac:(lia))).
        intros ms s2 HI2. apply agree_same. intros b s3 l X. injection X as <- _ _. exact HI2.
  Qed.

  Lemma quiet_inv {A} (m : @M S A) s : (forall s', exists l o, m s' = (s', l, o)) -> inv s ->
    agree False m m s (fun _ s' => inv s').
  Proof.
    intros H HI. apply agree_same. intros a s' l X. destruct (H s) as (l1 & o1 & E1). rewrite E1 in X. injection X as <- _ _. exact HI.
  Qed.
  Lemma rm_agree a b s : inv s -> agree False (cacheRemove E a b) (cacheRemove E' a b) s (fun _ s' => inv s').
  Proof. intro HI. apply agree_same. intros u s' l X. injection X as <- _ _. apply Hrm, HI. Qed.

  Lemma seq_inv {A B} (m m' : @M S A) (k k' : @M S B) s : agree False m m' s (fun _ s' => inv s') ->
    (forall s', inv s' -> agree False k k' s' (fun _ s' => inv s')) -> agree False (mseq m k) (mseq m' k') s (fun _ s' => inv s').
  Proof. intros H1 H2. apply (agree_seq False _ _ _ _ s _ _ H1). intros _ s' H. exact (H2 s' H). Qed.

  Section Step.
    Variables (self self' : rect -> Q -> @M S unit).
    Hypothesis Hself : forall q phi s, cell_of P R0 q -> (Qabs (phi - inject_Z (Z.of_nat (count zeros q))) <= 1 # 5)%Q -> inv s ->
      agree False (self q phi) (self' q phi) s (fun _ s' => inv s').

    Lemma halves_agree A B u v u' v' s : cell_of P R0 A -> cell_of P R0 B -> inv s ->
      agree False
        (mbind (calculateRefinedMoment E A) (fun phi1 => mseq (self A phi1) (mseq (cacheRemove E u v)
          (mbind (calculateRefinedMoment E B) (fun phi2 => mseq (self B phi2) (cacheRemove E u' v'))))))
        (mbind (calculateRefinedMoment E' A) (fun phi1 => mseq (self' A phi1) (mseq (cacheRemove E' u v)
          (mbind (calculateRefinedMoment E' B) (fun phi2 => mseq (self' B phi2) (cacheRemove E' u' v')))))) s (fun _ s' => inv s').
    Proof.
      intros HA HB HI. apply (agree_bind False _ _ _ _ s _ _ (refined_agree A s HA HI)). intros phi1 s1 [Hphi HI1].
      apply seq_inv; [exact (Hself A phi1 s1 HA Hphi HI1)|]. intros s2 HI2.
      apply seq_inv; [apply rm_agree, HI2|]. intros s3 HI3.
      apply (agree_bind False _ _ _ _ s3 _ _ (refined_agree B s3 HB HI3)). intros phi2 s4 [Hphi2 HI4].
      apply seq_inv; [exact (Hself B phi2 s4 HB Hphi2 HI4)|]. intros s5 HI5. apply rm_agree, HI5.
    Qed.

    Lemma simple_agree q phi s : cell_of P R0 q -> inv s ->
      agree False (decide_simple E self q phi) (decide_simple E' self' q phi) s (fun _ s' => inv s').
    Proof.
      intros Hq HI. unfold decide_simple. change (epsRe E') with (epsRe E). change (epsIm E') with (epsIm E).
      destruct (Qltb phi TWO_PI).
      { apply quiet_inv; [intro s'; do 2 eexists; reflexivity|exact HI]. }
      destruct (Qltb (deltaRe q) (epsRe E) && Qltb (deltaIm q) (epsIm E)) eqn:T.
      { apply quiet_inv; [intro s'; do 2 eexists; reflexivity|exact HI]. }
      assert (NS : ~ sub_tolerance P q).
      { intros [C1 C2]. unfold epsRe, epsIm in T. rewrite HP in T. apply andb_false_iff in T.
        destruct T as [T|T]; apply Qltb_false in T; eapply Qle_not_lt; eauto. }
      destruct (Qltb (deltaIm q / epsIm E) (deltaRe q / epsRe E)) eqn:W.
      - assert (HW : wider P q) by (apply Qltb_true in W; unfold epsRe, epsIm in W; rewrite HP in W; exact W).
        apply halves_agree; [exact (cell_left P R0 q Hq NS HW)|exact (cell_right P R0 q Hq NS HW)|exact HI].
      - assert (HW : ~ wider P q).
        { apply Qltb_false in W. unfold epsRe, epsIm in W. rewrite HP in W. apply Qle_not_lt. exact W. }
        apply halves_agree; [exact (cell_bottom P R0 q Hq NS HW)|exact (cell_top P R0 q Hq NS HW)|exact HI].
    Qed.

    Lemma poly_agree q phi s : cell_of P R0 q -> (Qabs (phi - inject_Z (Z.of_nat (count zeros q))) <= 1 # 5)%Q -> inv s ->
      agree False (decide_poly E self q phi) (decide_poly E' self' q phi) s (fun _ s' => inv s').
    Proof.
      intros Hq Hphi HI. unfold decide_poly. change (epsRe E') with (epsRe E). change (epsIm E') with (epsIm E).
      change (e_has_df E') with (e_has_df E).
      destruct (negb (e_has_df E)).
      { apply quiet_inv; [intro s'; do 2 eexists; reflexivity|exact HI]. }
      destruct (Qltb TWO_PI phi && Qltb (deltaRe q) (epsRe E) && Qltb (deltaIm q) (epsIm E)).
      { apply quiet_inv; [intro s'; do 2 eexists; reflexivity|exact HI]. }
      destruct (Qltb TWO_PI phi && Qltb phi MAX_PHASE) eqn:Z12; [|exact (simple_agree q phi s Hq HI)].
      apply andb_true_iff in Z12. destruct Z12 as [Z1 Z2]. apply Qltb_true in Z1, Z2.
      assert (Hn : (1 <= count zeros q <= 3)%nat).
      { unfold TWO_PI, MAX_PHASE in Z1, Z2. apply Qabs_Qle_condition in Hphi. destruct Hphi as [A1 A2].
        assert (U : (inject_Z (Z.of_nat (count zeros q)) < 4)%Q) by Lqa.lra.
        assert (L : (0 < inject_Z (Z.of_nat (count zeros q)))%Q) by Lqa.lra.
        change 4%Q with (inject_Z 4) in U. change 0%Q with (inject_Z 0) in L. rewrite <- Zlt_Qlt in U, L. lia. }
      assert (Hround : Z.to_nat (round_half_even phi) = count zeros q).
      { rewrite (round_half_even_close (Z.of_nat (count zeros q))); [apply Nat2Z.id|].
        eapply Qle_lt_trans; [exact Hphi|reflexivity]. }
      cbv zeta. rewrite Hround.
      apply (agree_bind False _ _ _ _ s _ _ (moments_agree q Hq ltac:(lia) (count zeros q) 1 s HI ltac:(lia) ltac:(lia))).
      intros ms s1 HI1. change (e_polyroots E') with (e_polyroots E).
      destruct (e_polyroots E (coefficients_cplx ms)); (apply quiet_inv; [intro s'; do 2 eexists; reflexivity|exact HI1]).
    Qed.
  End Step.

  Lemma decide_agree fuel : forall q phi s, cell_of P R0 q -> (Qabs (phi - inject_Z (Z.of_nat (count zeros q))) <= 1 # 5)%Q -> inv s ->
    agree False (decideRefinement E PolyV fuel q phi) (decideRefinement E' PolyV fuel q phi) s (fun _ s' => inv s').
  Proof.
    induction fuel as [|fuel IH]; intros q phi s Hq Hphi HI; cbn [decideRefinement].
    - apply quiet_inv; [intro s'; do 2 eexists; reflexivity|exact HI].
    - apply poly_agree; assumption.
  Qed.

  Lemma calcRoots_agree fuel s : inv (if e_dirty E s then e_reset E s else s) ->
    calcRoots E PolyV fuel R0 s = calcRoots E' PolyV fuel R0 s.
  Proof.
    intro HI. unfold calcRoots. change (e_dirty E' s) with (e_dirty E s). change (e_reset E' s) with (e_reset E s).
    destruct (agree_bind False (calcMoment E 0 R0) (calcMoment E' 0 R0) (fun m => decideRefinement E PolyV fuel R0 (re m))
      (fun m => decideRefinement E' PolyV fuel R0 (re m)) _ _ (fun _ s' => inv s') (moment0_agree R0 _ (cell_whole P R0) HI)) as [(s' & l & _ & [])|[X _]].
    - intros m s' [A B]. exact (decide_agree fuel R0 (re m) s' (cell_whole P R0) A B).
    - exact X.
  Qed.
End Agree.
