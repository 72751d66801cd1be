From Coq Require Import Reals Qreals.
From Verif Require Import PyBase Rounding_Model Rounding_Proofs Poly_Model Refine_Model Refine_Spec
  Refine_Proofs Refine_Proofs2 Zeros_Spec.
From Coq Require Import Lra.
Open Scope R_scope.

Lemma zinb_true r z : zinb r z = true <-> zin r z.
Proof.
  unfold zinb, zin. destruct (between_dec _ (fst z) _), (between_dec _ (snd z) _); cbn;
    split; try tauto; try discriminate.
Qed.
Lemma zinb_false r z : zinb r z = false <-> ~ zin r z.
Proof. rewrite <- zinb_true. destruct (zinb r z); split; congruence. Qed.

Lemma Q2R_half a b : Q2R ((a + b) / 2) = (Q2R a + Q2R b) / 2.
Proof.
  rewrite Q2R_div by discriminate. rewrite Q2R_plus. replace (Q2R 2) with 2; [reflexivity|].
  unfold Q2R; cbn. field.
Qed.

Section Zeros.
  Context {S : Type} (E : env S) (zeros : list point).
  Notation small r := (sub_tolerance (e_precision E) r).

  Lemma splits_zin r A B z : splits E r A B -> proper r ->
    (zin r z <-> zin A z \/ zin B z) /\ (zstrict A z -> ~ zin B z).
  Proof.
    intros [_ [(_ & -> & ->)|(_ & -> & ->)]] [Hx Hy];
      apply Qle_Rle in Hx; apply Qle_Rle in Hy;
      unfold zin, zstrict; cbn [x1 x2 y1 y2]; rewrite Q2R_half; lra.
  Qed.

  Lemma filter_length_split (f g h : point -> bool) l :
    (forall z, In z l -> f z = g z || h z) ->
    (forall z, In z l -> g z = true -> h z = false) ->
    List.length (filter f l) = (List.length (filter g l) + List.length (filter h l))%nat.
  Proof.
    induction l as [|a l IH]; intros H1 H2; [reflexivity|]. cbn.
    rewrite (H1 a) by (left; reflexivity).
    specialize (IH (fun z Hz => H1 z (or_intror Hz)) (fun z Hz => H2 z (or_intror Hz))).
    destruct (g a) eqn:Ga.
    - rewrite (H2 a (or_introl eq_refl) Ga). cbn. lia.
    - destruct (h a); cbn; lia.
  Qed.

  Lemma count_split r A B : splits E r A B -> proper r -> avoids zeros A ->
    count zeros r = (count zeros A + count zeros B)%nat.
  Proof.
    intros HS Hr HA. unfold count. apply filter_length_split; intros z Hz.
    - destruct (splits_zin r A B z HS Hr) as [H _].
      destruct (zinb r z) eqn:C.
      + apply zinb_true, H in C. symmetry. rewrite orb_true_iff, !zinb_true. exact C.
      + apply zinb_false in C. symmetry. rewrite orb_false_iff, !zinb_false. tauto.
    - intro H. apply zinb_true in H. apply zinb_false.
      destruct (splits_zin r A B z HS Hr) as [_ HB]. apply HB, HA; assumption.
  Qed.

  Lemma good_nonneg_turn p n : good_estimate p n -> (TWO_PI <= p)%Q ->
    (1 <= n)%nat /\ round_half_even p = Z.of_nat n.
  Proof.
    intros [G0 G1] Hp. unfold TWO_PI in Hp. destruct n as [|n].
    { specialize (G0 eq_refl). exfalso. Lqa.lra. }
    split; [lia|]. apply round_half_even_close. apply G1. lia.
  Qed.

  Lemma good_empty p n : good_estimate p n -> (p < TWO_PI)%Q -> n = 0%nat.
  Proof.
    intros [G0 G1] Hp. unfold TWO_PI in Hp. destruct n as [|n]; [reflexivity|].
    destruct (G1 ltac:(lia)) as [G _]. exfalso. Lqa.lra.
  Qed.

  Lemma count_zero q z : count zeros q = 0%nat -> In z zeros -> ~ zin q z.
  Proof.
    unfold count. intros H Hz C. apply zinb_true in C.
    assert (I : In z (filter (zinb q) zeros)) by (apply filter_In; auto).
    destruct (filter (zinb q) zeros); [destruct I|discriminate].
  Qed.

  Lemma count_pos q : (1 <= count zeros q)%nat -> exists z, In z zeros /\ zin q z.
  Proof.
    unfold count. destruct (filter (zinb q) zeros) as [|z f] eqn:F; cbn; [lia|]. intros _.
    exists z. assert (I : In z (filter (zinb q) zeros)) by (rewrite F; left; reflexivity).
    apply filter_In in I. destruct I as [I1 I2]. split; [exact I1|]. apply zinb_true, I2.
  Qed.

  Lemma good_app l1 l2 : good_run zeros (l1 ++ l2) -> good_run zeros l1 /\ good_run zeros l2.
  Proof.
    intro H. split; intros q m Hi; apply (H q m); apply in_or_app; auto.
  Qed.

  Lemma located_app l1 l2 : located (l1 ++ l2) = located l1 ++ located l2.
  Proof. unfold located. rewrite roots_app, filter_app. reflexivity. Qed.

  Lemma est_located k r l m : est E k r l m -> located l = [].
  Proof.
    intro H. apply est_logs in H. destruct H as (_ & _ & _ & _ & H & _).
    unfold located. induction (roots_of l) as [|[z o] rs IH]; [reflexivity|]. cbn.
    destruct (H z o (or_introl eq_refl)) as [-> _]. cbn. apply IH.
    intros z' o' Hi. apply (H z' o'). right; exact Hi.
  Qed.

  Lemma good_est A l m : est E 0 A l m -> good_run zeros l ->
    avoids zeros A /\ exists m', m = Ok m' /\ good_estimate (re m') (count zeros A).
  Proof. intros H G. apply G. apply est_logs in H. tauto. Qed.

  Definition orders_sum (l : list rect) : nat :=
    fold_right plus 0%nat (map (count zeros) l).

  Lemma orders_sum_app a b : orders_sum (a ++ b) = (orders_sum a + orders_sum b)%nat.
  Proof. unfold orders_sum. rewrite map_app, fold_right_app. induction (map (count zeros) a); cbn; lia. Qed.

  (** The simple algorithm with good estimates. *)
  Lemma runs_correct n r phi l o : runs E Simple n r phi l o ->
    proper r -> good_estimate phi (count zeros r) -> good_run zeros l -> o <> OutOfFuel ->
    o = Done tt /\
    located l = map (fun q => (center q, Z.of_nat (count zeros q))) (reported l) /\
    (forall q, In q (reported l) -> sub_rect q r /\ proper q /\ small q /\ (1 <= count zeros q)%nat) /\
    (forall z, In z zeros -> zin r z -> exists q, In q (reported l) /\ zin q z) /\
    orders_sum (reported l) = count zeros r.
  Proof.
    remember Simple as v eqn:Ev. intro H. revert Ev.
    induction H as [r phi|n r phi Hv Hdf|n r phi Hdf Hp|n r phi Hdf Hp Hs|n r phi l o Hv Hs Hz HN
      |n r phi l o Hv Hdf Hs Hz HP|n r phi A B l e Hdf Hp Hz HAB H1
      |n r phi A B l1 m l2 o Hdf Hp Hz HAB H1 H2 IH2 Ho
      |n r phi A B l1 m l2 l3 e Hdf Hp Hz HAB H1 H2 IH2 H3
      |n r phi A B l1 m l2 l3 m2 l4 o Hdf Hp Hz HAB H1 H2 IH2 H3 H4 IH4];
      intros Ev Hr Hg Hgr Hf; try congruence.
    - change (EvDiscard r phi :: ?l) with ([EvDiscard r phi] ++ l).
      rewrite reported_app, located_app. unfold located at 2.
      destruct (adv_logs E (area r)) as (_ & -> & _ & _ & ->). cbn.
      pose proof (good_empty _ _ Hg Hp) as H0. rewrite H0.
      split; [reflexivity|]. split; [reflexivity|]. split; [intros q []|].
      split; [|reflexivity]. intros z Hz Hin. exfalso. eapply count_zero; eassumption.
    - change (EvReport r phi :: ?x :: ?l) with ([EvReport r phi; x] ++ l).
      rewrite reported_app, located_app. unfold located at 2.
      destruct (adv_logs E (deltaRe r * (0 - 0))) as (_ & -> & _ & _ & ->).
      destruct (good_nonneg_turn _ _ Hg Hp) as [Hc Hrd]. rewrite Hrd.
      cbn [app located filter roots_of flat_map snd reported map].
      destruct (Z.eqb_spec (Z.of_nat (count zeros r)) 0) as [C|_]; [lia|]. cbn.
      split; [reflexivity|]. split; [reflexivity|].
      split. { intros q [<-|[]]. split; [apply sub_rect_refl|]. auto. }
      split. { intros z Hz Hin. exists r. auto. }
      unfold orders_sum. cbn. lia.
    - destruct (good_est _ _ _ H1 Hgr) as (_ & m' & C & _). discriminate.
    - apply good_app in Hgr. destruct Hgr as [G1 G2].
      destruct (splits_geometry E _ _ _ HAB Hr) as (PA & PB & SA & SB & _).
      destruct (good_est _ _ _ H1 G1) as (_ & m' & [= <-] & GA).
      destruct (IH2 Ev PA GA G2 Hf) as (-> & _). contradiction.
    - apply good_app in Hgr. destruct Hgr as [_ G]. apply good_app in G. destruct G as [_ G].
      destruct (good_est _ _ _ H3 G) as (_ & m' & C & _). discriminate.
    - apply good_app in Hgr. destruct Hgr as [G1 G]. apply good_app in G. destruct G as [G2 G].
      apply good_app in G. destruct G as [G3 G4].
      destruct (splits_geometry E _ _ _ HAB Hr) as (PA & PB & SA & SB & _).
      destruct (good_est _ _ _ H1 G1) as (AA & m' & [= <-] & GA).
      destruct (good_est _ _ _ H3 G3) as (AB & m' & [= <-] & GB).
      destruct (IH2 Ev PA GA G2 ltac:(discriminate)) as (_ & L2 & Q2 & Z2 & O2).
      destruct (IH4 Ev PB GB G4 Hf) as (Ho & L4 & Q4 & Z4 & O4).
      rewrite !reported_app, !located_app.
      rewrite (est_located _ _ _ _ H1), (est_located _ _ _ _ H3).
      pose proof (est_logs E _ _ _ _ H1) as (_ & R1 & _).
      pose proof (est_logs E _ _ _ _ H3) as (_ & R3 & _). rewrite R1, R3. cbn [app].
      split; [exact Ho|]. split; [rewrite map_app, L2, L4; reflexivity|].
      split. { intros q Hq. apply in_app_or in Hq. destruct Hq as [Hq|Hq].
        - destruct (Q2 q Hq) as (A1 & A2). split; [eapply sub_rect_trans; eassumption|exact A2].
        - destruct (Q4 q Hq) as (A1 & A2). split; [eapply sub_rect_trans; eassumption|exact A2]. }
      split. { intros z Hzz Hin. destruct (splits_zin r A B z HAB Hr) as [[HH _] _].
        destruct (HH Hin) as [Hi|Hi].
        - destruct (Z2 z Hzz Hi) as (q & Hq & Hq'). exists q. split; [apply in_or_app; auto|exact Hq'].
        - destruct (Z4 z Hzz Hi) as (q & Hq & Hq'). exists q. split; [apply in_or_app; auto|exact Hq']. }
      rewrite orders_sum_app, O2, O4, (count_split r A B HAB Hr AA). reflexivity.
  Qed.

  Lemma near_center q z : proper q -> small q -> zin q z -> near (e_precision E) (center q) z.
  Proof.
    intros [Hx Hy] [S1 S2] [Z1 Z2]. unfold near, center. cbn [re im fst snd].
    apply Qlt_Rlt in S1, S2. rewrite Q2R_minus in S1, S2. rewrite !Q2R_half.
    split; apply Rabs_def1; lra.
  Qed.

  (** For every variant: a zero ends up in a rectangle that was not discarded. *)
  Lemma runs_not_lost v n r phi l o : runs E v n r phi l o ->
    proper r -> good_estimate phi (count zeros r) -> good_run zeros l -> o = Done tt ->
    forall z, In z zeros -> zin r z ->
    exists q p, (In (EvReport q p) l \/ In (EvNewton q p) l \/ In (EvPoly q p) l) /\
      zin q z /\ good_estimate p (count zeros q).
  Proof.
    induction 1 as [r phi|n r phi Hv Hdf|n r phi Hdf Hp|n r phi Hdf Hp Hs|n r phi l o Hv Hs Hz HN
      |n r phi l o Hv Hdf Hs Hz HP|n r phi A B l e Hdf Hp Hz HAB H1
      |n r phi A B l1 m l2 o Hdf Hp Hz HAB H1 H2 IH2 Ho
      |n r phi A B l1 m l2 l3 e Hdf Hp Hz HAB H1 H2 IH2 H3
      |n r phi A B l1 m l2 l3 m2 l4 o Hdf Hp Hz HAB H1 H2 IH2 H3 H4 IH4];
      intros Hr Hg Hgr Hd z Hzz Hin; try discriminate; try contradiction.
    - exfalso. eapply count_zero; [eapply good_empty; eassumption|eassumption|exact Hin].
    - exists r, phi. split; [left; left; reflexivity|]. auto.
    - destruct HN as (rs & x & -> & _). exists r, phi. split; [right; left; left; reflexivity|]. auto.
    - destruct HP as (l1 & [ms|e] & HM & K).
      + destruct (e_polyroots E _) as [rts|e]; destruct K as [K1 K2].
        * subst l. exists r, phi. split; [right; right; apply in_or_app; right; left; reflexivity|]. auto.
        * congruence.
      + destruct K; congruence.
    - apply good_app in Hgr. destruct Hgr as [G1 G]. apply good_app in G. destruct G as [G2 G].
      apply good_app in G. destruct G as [G3 G4].
      destruct (splits_geometry E _ _ _ HAB Hr) as (PA & PB & SA & SB & _).
      destruct (good_est _ _ _ H1 G1) as (AA & m' & [= <-] & GA).
      destruct (good_est _ _ _ H3 G3) as (AB & m' & [= <-] & GB).
      destruct (splits_zin r A B z HAB Hr) as [[HH _] _]. destruct (HH Hin) as [Hi|Hi].
      + destruct (IH2 PA GA G2 eq_refl z Hzz Hi) as (q & p & Hq & Hq'). exists q, p.
        split; [|exact Hq']. rewrite !in_app_iff. tauto.
      + destruct (IH4 PB GB G4 Hd z Hzz Hi) as (q & p & Hq & Hq'). exists q, p.
        split; [|exact Hq']. rewrite !in_app_iff. tauto.
  Qed.
End Zeros.
