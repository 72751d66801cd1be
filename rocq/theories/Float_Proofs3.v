(** Floating point: whole searches, termination, precision limit. *)
From Coq Require Import Reals Qreals.
From Verif Require Import PyBase Rounding_Model Rounding_Proofs Poly_Model Refine_Model Refine_Spec
  Refine_Proofs Refine_Proofs2 Zeros_Spec Zeros_Proofs Refine_Proofs3 Float_Model Float_Spec Float_Proofs2.
From Coq Require Import Lqa.
Open Scope Z_scope.

Section Whole.
  Context {S : Type} (rnd : Q -> Q) (tolRe tolIm : Q) (E : env S).
  Hypothesis HR : rounding rnd.
  Hypothesis T1 : (0 < tolRe)%Q.
  Hypothesis T2 : (0 < tolIm)%Q.
  Hypothesis F1 : representable rnd tolRe.
  Hypothesis F2 : representable rnd tolIm.
  Notation fcalc := (fcalcRoots rnd tolRe tolIm E).

  Lemma fl_tiles v fuel r s s' l : proper r -> float_rect rnd r ->
    fcalc v fuel r s = (s', l, Done tt) ->
    tiles r (handled l) /\ forall q, In q (handled l) -> float_rect rnd q.
  Proof.
    intros Hr Hf H. apply fcalcRoots_runs in H. destruct H as [(e & H & C)|(m & l1 & l2 & H1 & H2 & ->)];
      [discriminate|].
    apply est_logs in H1. destruct H1 as (L & _). rewrite handled_app, L. cbn [app].
    eapply (fruns_tiles rnd tolRe tolIm E HR); [exact H2|reflexivity|exact Hr|exact Hf].
  Qed.

  (** Which roots are reported. *)
  Lemma fruns_reports n r phi l o : fruns rnd tolRe tolIm E Simple n r phi l o ->
    proper r -> float_rect rnd r -> forall z k, In (EvRoot (z, k)) l ->
    (k = 0 /\ contour_zero E z) \/
    exists q t, ((q = r /\ t = phi) \/ estimate E l q t) /\ sub_rect q r /\ float_rect rnd q /\
      sides_below tolRe tolIm q /\ inside q z /\ (TWO_PI <= t)%Q /\ k = round_half_even t.
  Proof.
    remember Simple as v eqn:Ev. intro H. revert Ev.
    induction H as [r phi|n r phi Hv|n r phi Hp|n r phi Hp Hs|n r phi l o Hv Hp HS
      |n r phi A B l e Hp HAB H1
      |n r phi A B l1 m l2 o Hp HAB H1 H2 IH2 Ho
      |n r phi A B l1 m l2 l3 e Hp HAB H1 H2 IH2 H3
      |n r phi A B l1 m l2 l3 m2 l4 o Hp HAB H1 H2 IH2 H3 H4 IH4];
      intros Ev Hr Hf z k Hi; try congruence.
    - destruct Hi.
    - destruct Hi as [Hi|Hi]; [discriminate|]. unfold adv in Hi.
      destruct (e_progress E); [destruct Hi as [Hi|[]]; discriminate|destruct Hi].
    - destruct Hi as [Hi|[Hi|Hi]]; [discriminate| |].
      + injection Hi as <- <-. right. exists r, phi. split; [auto|]. split; [apply sub_rect_refl|].
        split; [exact Hf|]. split; [apply (fsmall_sides rnd tolRe tolIm HR F1 F2), Hs|].
        split; [|auto]. destruct Hr as [Hx Hy]. destruct Hf as (R1 & R2 & R3 & R4).
        unfold inside, fcenter. cbn [re im fst snd].
        split; apply (fmid_between rnd HR); assumption.
      + unfold adv in Hi. destruct (e_progress E); [destruct Hi as [Hi|[]]; discriminate|destruct Hi].
    - eapply est_in in Hi; [|exact H1]. destruct Hi as [Hi|(z' & Hi & Hz)]; [discriminate|].
      injection Hi as -> ->. left; auto.
    - destruct (fsplits_geometry rnd tolRe tolIm HR _ _ _ HAB Hr Hf) as (PA & PB & FA & FB & SA & SB & _).
      apply in_app_or in Hi. destruct Hi as [Hi|Hi].
      + eapply est_in in Hi; [|exact H1]. destruct Hi as [Hi|(z' & Hi & Hz)]; [discriminate|].
        injection Hi as -> ->. left; auto.
      + destruct (IH2 Ev PA FA z k Hi) as [K|(q & t & K & K2 & K3)]; [left; exact K|]. right. exists q, t.
        split; [right|split; [eapply sub_rect_trans; eassumption|exact K3]].
        destruct K as [[-> ->]|(m' & K & ->)].
        * exists m. split; [apply in_or_app; left; apply est_logs in H1; tauto|reflexivity].
        * exists m'. split; [apply in_or_app; auto|reflexivity].
    - destruct (fsplits_geometry rnd tolRe tolIm HR _ _ _ HAB Hr Hf) as (PA & PB & FA & FB & SA & SB & _).
      rewrite !in_app_iff in Hi. destruct Hi as [Hi|[Hi|Hi]].
      + eapply est_in in Hi; [|exact H1]. destruct Hi as [Hi|(z' & Hi & Hz)]; [discriminate|].
        injection Hi as -> ->. left; auto.
      + destruct (IH2 Ev PA FA z k Hi) as [K|(q & t & K & K2 & K3)]; [left; exact K|]. right. exists q, t.
        split; [right|split; [eapply sub_rect_trans; eassumption|exact K3]].
        destruct K as [[-> ->]|(m' & K & ->)].
        * exists m. split; [rewrite !in_app_iff; left; apply est_logs in H1; tauto|reflexivity].
        * exists m'. split; [rewrite !in_app_iff; auto|reflexivity].
      + eapply est_in in Hi; [|exact H3]. destruct Hi as [Hi|(z' & Hi & Hz)]; [discriminate|].
        injection Hi as -> ->. left; auto.
    - destruct (fsplits_geometry rnd tolRe tolIm HR _ _ _ HAB Hr Hf) as (PA & PB & FA & FB & SA & SB & _).
      rewrite !in_app_iff in Hi. destruct Hi as [Hi|[Hi|[Hi|Hi]]].
      + eapply est_in in Hi; [|exact H1]. destruct Hi as [Hi|(z' & Hi & Hz)]; [discriminate|].
        injection Hi as -> ->. left; auto.
      + destruct (IH2 Ev PA FA z k Hi) as [K|(q & t & K & K2 & K3)]; [left; exact K|]. right. exists q, t.
        split; [right|split; [eapply sub_rect_trans; eassumption|exact K3]].
        destruct K as [[-> ->]|(m' & K & ->)].
        * exists m. split; [rewrite !in_app_iff; left; apply est_logs in H1; tauto|reflexivity].
        * exists m'. split; [rewrite !in_app_iff; auto|reflexivity].
      + eapply est_in in Hi; [|exact H3]. destruct Hi as [Hi|(z' & Hi & Hz)]; [discriminate|].
        injection Hi as -> ->. left; auto.
      + destruct (IH4 Ev PB FB z k Hi) as [K|(q & t & K & K2 & K3)]; [left; exact K|]. right. exists q, t.
        split; [right|split; [eapply sub_rect_trans; eassumption|exact K3]].
        destruct K as [[-> ->]|(m' & K & ->)].
        * exists m2. split; [rewrite !in_app_iff; right; right; left; apply est_logs in H3; tauto|reflexivity].
        * exists m'. split; [rewrite !in_app_iff; auto|reflexivity].
  Qed.

  Lemma fl_reports fuel r s s' l o z k : proper r -> float_rect rnd r ->
    fcalc Simple fuel r s = (s', l, o) -> In (z, k) (roots_of l) ->
    (k = 0 /\ contour_zero E z) \/
    (exists q t, estimate E l q t /\ sub_rect q r /\ float_rect rnd q /\ sides_below tolRe tolIm q /\
      inside q z /\ 1 <= k /\ (Qabs (t - inject_Z k) <= 1 # 2)%Q).
  Proof.
    intros Hr Hf H Hi. apply in_roots_of in Hi. apply fcalcRoots_runs in H.
    destruct H as [(e & H & ->)|(m & l1 & l2 & H1 & H2 & ->)].
    - eapply est_in in Hi; [|exact H]. destruct Hi as [Hi|(z' & Hi & Hz)]; [discriminate|].
      injection Hi as -> ->. left; auto.
    - apply in_app_or in Hi. destruct Hi as [Hi|Hi].
      { eapply est_in in Hi; [|exact H1]. destruct Hi as [Hi|(z' & Hi & Hz)]; [discriminate|].
        injection Hi as -> ->. left; auto. }
      destruct (fruns_reports _ _ _ _ _ H2 Hr Hf z k Hi) as [K|(q & t & K & K2 & K3 & K4 & K5 & K6 & K7)];
        [left; exact K|]. right. exists q, t. split.
      { destruct K as [[-> ->]|(m' & K & ->)].
        - exists m. split; [apply in_or_app; left; apply est_logs in H1; tauto|reflexivity].
        - exists m'. split; [apply in_or_app; auto|reflexivity]. }
      repeat (split; [assumption|]). split.
      + rewrite K7. change 1 with (round_half_even TWO_PI). apply round_half_even_mono, K6.
      + apply round_error. congruence.
  Qed.

  (** Correctness relative to the estimates. *)
  Lemma fl_correct zeros fuel r s s' l o : proper r -> float_rect rnd r ->
    fcalc Simple fuel r s = (s', l, o) -> o <> OutOfFuel -> good_run zeros l ->
    o = Done tt /\
    Forall2 (fun q ck => inside q (fst ck) /\ snd ck = Z.of_nat (count zeros q)) (reported l) (located l) /\
    (forall q, In q (reported l) ->
       sub_rect q r /\ float_rect rnd q /\ sides_below tolRe tolIm q /\ (1 <= count zeros q)%nat) /\
    ForallOrdPairs interiors_disjoint (reported l) /\
    (forall z, In z zeros -> zin r z ->
       exists q, In q (reported l) /\ zin q z) /\
    (forall z, In z zeros -> zin r z ->
       exists c k, In (c, k) (located l) /\ fnear tolRe tolIm c z) /\
    (forall c k, In (c, k) (located l) ->
       exists z, In z zeros /\ zin r z /\ fnear tolRe tolIm c z) /\
    fold_right Z.add 0 (map snd (located l)) = Z.of_nat (count zeros r).
  Proof.
    intros Hr Hfl H Ho Hg. pose proof H as Hcopy.
    apply fcalcRoots_runs in H. destruct H as [(e & H & ->)|(m & l1 & l2 & H1 & H2 & ->)].
    { destruct (good_est E zeros _ _ _ H Hg) as (_ & m' & C & _). discriminate. }
    pose proof (good_app zeros _ _ Hg) as [G1 G2].
    destruct (good_est E zeros _ _ _ H1 G1) as (_ & m' & [= <-] & GA).
    destruct (fruns_correct rnd tolRe tolIm E HR F1 F2 zeros _ _ _ _ _ H2 Hr Hfl GA G2 Ho) as (-> & L & Q & Z & O).
    rewrite located_app, (est_located E _ _ _ _ H1). cbn [app].
    rewrite reported_app. pose proof (est_logs E _ _ _ _ H1) as (Lh & R & _). rewrite R. cbn [app].
    split; [reflexivity|]. split.
    { rewrite L. assert (G : forall q, In q (reported l2) -> proper q /\ float_rect rnd q).
      { intros q Hq. destruct (Q q Hq) as (A1 & A2 & A3 & _). auto. }
      revert G. clear -HR. induction (reported l2) as [|q ls IH]; intro G; [constructor|].
      constructor; [|apply IH; intros q' Hq'; apply G; right; exact Hq'].
      cbn [fst snd]. split; [|reflexivity].
      destruct (G q (or_introl eq_refl)) as [[Hx Hy] (R1 & R2 & R3 & R4)].
      unfold inside, fcenter. cbn [re im fst snd]. split; apply (fmid_between rnd HR); assumption. }
    split. { intros q Hq. destruct (Q q Hq) as (A1 & A2 & A3 & A4 & A5). auto. }
    split.
    { destruct (fl_tiles Simple fuel r s s' _ Hr Hfl Hcopy) as ((_ & _ & D & _) & _).
      rewrite handled_app, Lh in D. cbn [app] in D. clear -D.
      assert (I : forall l, ForallOrdPairs interiors_disjoint (handled l) ->
         ForallOrdPairs interiors_disjoint (reported l)).
      { assert (J : forall l q, In q (reported l) -> In q (handled l)).
        { intros l q. unfold reported, handled. rewrite !in_flat_map. intros (ev & Hev & Hq).
          exists ev. split; [exact Hev|]. destruct ev; cbn in *; tauto. }
        intro l. induction l as [|ev l IH]; [intros _; constructor|].
        intro D'. change (ev :: l) with ([ev] ++ l) in *. rewrite handled_app in D'. rewrite reported_app.
        destruct ev; cbn [handled reported flat_map app] in *; try (apply IH; exact D'); inversion D'; subst; auto.
        constructor; [|auto]. rewrite Forall_forall in *. intros q Hq. auto. }
      apply I, D. }
    split; [exact Z|].
    split.
    { intros z Hz Hin. destruct (Z z Hz Hin) as (q & Hq & Hqz).
      exists (fcenter rnd q), (Z.of_nat (count zeros q)). split.
      - rewrite L. apply in_map_iff. exists q. auto.
      - destruct (Q q Hq) as (A1 & A2 & A3 & A4 & A5). apply (fnear_center rnd tolRe tolIm HR); assumption. }
    split.
    { intros c k Hck. rewrite L in Hck. apply in_map_iff in Hck. destruct Hck as (q & [= <- <-] & Hq).
      destruct (Q q Hq) as (A1 & A2 & A3 & A4 & A5). destruct (count_pos zeros q A5) as (z & Hz & Hqz).
      exists z. split; [exact Hz|]. split; [|apply (fnear_center rnd tolRe tolIm HR); assumption].
      clear -A1 Hqz. unfold sub_rect in A1. destruct A1 as (A1 & B1 & C1 & D1).
      apply Qle_Rle in A1, B1, C1, D1. unfold zin in *. Lra.lra. }
    rewrite L, map_map. cbn [snd]. rewrite <- O. unfold orders_sum. clear.
    induction (reported l2) as [|q ls IH]; [reflexivity|]. cbn [map fold_right]. rewrite IH. lia.
  Qed.

  (** With a zero at which the floating point grid is coarser than the tolerance, a search
      with good estimates never ends. *)
  Lemma fl_limit zeros z : In z zeros ->
    (forall a b, representable rnd a -> representable rnd b ->
       (Q2R a <= fst z <= Q2R b)%R -> (tolRe <= b - a)%Q) \/
    (forall a b, representable rnd a -> representable rnd b ->
       (Q2R a <= snd z <= Q2R b)%R -> (tolIm <= b - a)%Q) ->
    forall r fuel s s' l o, proper r -> float_rect rnd r -> zin r z ->
    fcalc Simple fuel r s = (s', l, o) -> good_run zeros l -> o = OutOfFuel.
  Proof.
    intros Hz Hg r fuel s s' l o Hr Hf Hin H G.
    destruct o as [[]|e|]; [exfalso|exfalso|reflexivity].
    - destruct (fl_correct zeros fuel r s s' l _ Hr Hf H ltac:(discriminate) G)
        as (_ & _ & Q & _ & Z & _).
      destruct (Z z Hz Hin) as (q & Hq & Hqz).
      destruct (Q q Hq) as (_ & (R1 & R2 & R3 & R4) & [S1 S2] & _).
      destruct Hqz as [Z1 Z2].
      destruct Hg as [Hg|Hg]; [specialize (Hg _ _ R1 R2 Z1)|specialize (Hg _ _ R3 R4 Z2)]; lra.
    - destruct (fl_correct zeros fuel r s s' l _ Hr Hf H ltac:(discriminate) G) as (C & _). discriminate.
  Qed.

  (** ** Termination *)
  Section Depth.
    Variables B u : Q.
    Hypothesis HA : accurate rnd B u.
    Hypothesis U1 : (16 * u <= tolRe)%Q.
    Hypothesis U2 : (16 * u <= tolIm)%Q.

    Definition corners_below (r : rect) : Prop :=
      (- B <= x1 r /\ x2 r <= B /\ - B <= y1 r /\ y2 r <= B)%Q.
    Definition fbelow (r : rect) (a b : nat) : Prop :=
      (x2 r - x1 r - 3 * u < inject_Z (2 ^ Z.of_nat a) * (tolRe / 2) /\
       y2 r - y1 r - 3 * u < inject_Z (2 ^ Z.of_nat b) * (tolIm / 2))%Q.

    Lemma mid_error a b : representable rnd a -> representable rnd b -> (a <= b)%Q ->
      (- B <= a)%Q -> (b <= B)%Q ->
      (fmid rnd a b <= (a + b) / 2 + 3 * u / 2 /\ (a + b) / 2 - 3 * u / 2 <= fmid rnd a b)%Q.
    Proof.
      intros Ra Rb H LA UB. unfold fmid.
      assert (L : (2 * a <= rnd (a + b))%Q) by (apply (rnd_ge rnd HR); [apply (rnd_double _ HR), Ra|lra]).
      assert (U : (rnd (a + b) <= 2 * b)%Q) by (apply (rnd_le rnd HR); [apply (rnd_double _ HR), Rb|lra]).
      assert (A1 : (Qabs (rnd (a + b) - (a + b)) <= u)%Q).
      { apply HA. apply Qabs_Qle_condition. lra. }
      set (s := rnd (a + b)) in *.
      assert (A2 : (Qabs (rnd (s / 2) - s / 2) <= u)%Q).
      { apply HA. apply Qabs_Qle_condition.
        assert (a <= s / 2)%Q by (apply Qle_shift_div_l; [reflexivity|lra]).
        assert (s / 2 <= b)%Q by (apply Qle_shift_div_r; [reflexivity|lra]). lra. }
      apply Qabs_Qle_condition in A1, A2.
      setoid_replace ((a + b) / 2 + 3 * u / 2)%Q with (((a + b) + u) / 2 + u)%Q by field.
      setoid_replace ((a + b) / 2 - 3 * u / 2)%Q with (((a + b) - u) / 2 - u)%Q by field.
      assert (s / 2 <= ((a + b) + u) / 2)%Q.
      { unfold Qdiv. apply Qmult_le_compat_r; [lra|discriminate]. }
      assert (((a + b) - u) / 2 <= s / 2)%Q.
      { unfold Qdiv. apply Qmult_le_compat_r; [lra|discriminate]. }
      lra.
    Qed.

    Lemma quotient_low d t : (0 < t)%Q -> (d < (3 # 4) * t)%Q -> (rnd (d / t) <= 3 # 4)%Q.
    Proof.
      intros Ht Hd. apply (rnd_le rnd HR); [apply (rnd_three_quarters _ HR)|].
      apply Qle_shift_div_r; [exact Ht|lra].
    Qed.
    Lemma quotient_small d t : (0 < t)%Q -> (rnd (d / t) <= 3 # 4)%Q -> (d < t)%Q.
    Proof.
      intros Ht Hd. apply Qdiv_lt_1; [exact Ht|].
      apply (rnd_below rnd HR _ 1); [apply (rnd_one _ HR)|]. lra.
    Qed.

    Lemma halved w m t a :
      (w - 3 * u < inject_Z (2 ^ Z.of_nat (Datatypes.S a)) * (t / 2))%Q ->
      (m <= w / 2 + 3 * u / 2)%Q ->
      (m - 3 * u < inject_Z (2 ^ Z.of_nat a) * (t / 2))%Q.
    Proof.
      intros Hw Hm. rewrite two_S in Hw.
      setoid_replace (w / 2 + 3 * u / 2)%Q with ((w - 3 * u) / 2 + 3 * u)%Q in Hm by field.
      set (c := inject_Z (2 ^ Z.of_nat a)) in *.
      assert ((w - 3 * u) / 2 < c * (t / 2))%Q; [|lra].
      apply Qlt_shift_div_r; [reflexivity|]. lra.
    Qed.

    Lemma fsplits_below r A C a b : fsplits rnd tolRe tolIm r A C -> proper r -> float_rect rnd r ->
      corners_below r -> fbelow r a b ->
      (exists a', a = Datatypes.S a' /\ fbelow A a' b /\ fbelow C a' b) \/
      (exists b', b = Datatypes.S b' /\ fbelow A a b' /\ fbelow C a b').
    Proof.
      intros [Hn H] [Px Py] (R1 & R2 & R3 & R4) (C1 & C2 & C3 & C4) [Ha Hb].
      assert (E1 : (Qabs (fdeltaRe rnd r - (x2 r - x1 r)) <= u)%Q).
      { apply HA. apply Qabs_Qle_condition. lra. }
      assert (E2 : (Qabs (fdeltaIm rnd r - (y2 r - y1 r)) <= u)%Q).
      { apply HA. apply Qabs_Qle_condition. lra. }
      apply Qabs_Qle_condition in E1, E2.
      destruct H as [(Hq & -> & ->)|(Hq & -> & ->)].
      - left. destruct a as [|a'].
        + exfalso. apply Hn. change (inject_Z (2 ^ Z.of_nat 0)) with 1%Q in Ha.
          assert (Hd : (fdeltaRe rnd r < (3 # 4) * tolRe)%Q).
          { setoid_replace (1 * (tolRe / 2))%Q with ((1 # 2) * tolRe)%Q in Ha by field. lra. }
          pose proof (quotient_low _ _ T1 Hd) as Ql. split; [lra|].
          apply (quotient_small _ _ T2). lra.
        + exists a'. split; [reflexivity|].
          destruct (mid_error _ _ R1 R2 Px C1 C2) as [M1 M2].
          split; (split; cbn [x1 x2 y1 y2]; [|exact Hb]); (eapply halved; [exact Ha|]).
          * setoid_replace ((x2 r - x1 r) / 2 + 3 * u / 2)%Q with ((x1 r + x2 r) / 2 + 3 * u / 2 - x1 r)%Q by field.
            lra.
          * setoid_replace ((x2 r - x1 r) / 2 + 3 * u / 2)%Q with (x2 r - ((x1 r + x2 r) / 2 - 3 * u / 2))%Q by field.
            lra.
      - right. destruct b as [|b'].
        + exfalso. apply Hn. change (inject_Z (2 ^ Z.of_nat 0)) with 1%Q in Hb.
          assert (Hd : (fdeltaIm rnd r < (3 # 4) * tolIm)%Q).
          { setoid_replace (1 * (tolIm / 2))%Q with ((1 # 2) * tolIm)%Q in Hb by field. lra. }
          pose proof (quotient_low _ _ T2 Hd) as Ql. split; [|lra].
          apply (quotient_small _ _ T1). lra.
        + exists b'. split; [reflexivity|].
          destruct (mid_error _ _ R3 R4 Py C3 C4) as [M1 M2].
          split; (split; cbn [x1 x2 y1 y2]; [exact Ha|]); (eapply halved; [exact Hb|]).
          * setoid_replace ((y2 r - y1 r) / 2 + 3 * u / 2)%Q with ((y1 r + y2 r) / 2 + 3 * u / 2 - y1 r)%Q by field.
            lra.
          * setoid_replace ((y2 r - y1 r) / 2 + 3 * u / 2)%Q with (y2 r - ((y1 r + y2 r) / 2 - 3 * u / 2))%Q by field.
            lra.
    Qed.

    Lemma corners_sub q r : sub_rect q r -> corners_below r -> corners_below q.
    Proof. unfold sub_rect, corners_below. lra. Qed.

    Lemma fruns_terminate v n r phi l o : fruns rnd tolRe tolIm E v n r phi l o ->
      proper r -> float_rect rnd r -> corners_below r ->
      forall a b, fbelow r a b ->
      ((a + b < n)%nat -> o <> OutOfFuel) /\
      (List.length (handled l) <= 2 ^ (a + b))%nat /\
      (List.length (estimated l) + 2 <= 2 * 2 ^ (a + b))%nat.
    Proof.
      assert (P : forall k, (1 <= 2 ^ k)%nat) by (intro k; induction k; cbn; lia).
      induction 1 as [r phi|n r phi Hv|n r phi Hp|n r phi Hp Hs|n r phi l o Hv Hp HS
        |n r phi A C l e Hp HAB H1
        |n r phi A C l1 m l2 o Hp HAB H1 H2 IH2 Ho
        |n r phi A C l1 m l2 l3 e Hp HAB H1 H2 IH2 H3
        |n r phi A C l1 m l2 l3 m2 l4 o Hp HAB H1 H2 IH2 H3 H4 IH4];
        intros Pr Fr Cr a b Hb; pose proof (P (a + b)%nat) as Pab.
      - cbn. split; [lia|]. lia.
      - cbn. split; [discriminate|]. lia.
      - change (EvDiscard r phi :: ?l) with ([EvDiscard r phi] ++ l).
        rewrite handled_app, estimated_app. destruct (adv_logs E (farea rnd r)) as (-> & _ & _ & -> & _).
        cbn. split; [discriminate|]. lia.
      - change (EvReport r phi :: ?x :: ?l) with ([EvReport r phi; x] ++ l).
        rewrite handled_app, estimated_app.
        destruct (adv_logs E (fdeltaRe rnd r * (0 - 0))) as (-> & _ & _ & -> & _).
        cbn. split; [discriminate|]. lia.
      - destruct HS as ([HS|HS] & _ & _ & Hes & Hof); rewrite HS, Hes; cbn; (split; [auto|]; lia).
      - destruct (fsplits_below _ _ _ _ _ HAB Pr Fr Cr Hb) as [(a' & -> & _)|(b' & -> & _)];
          apply est_logs in H1; destruct H1 as (-> & _ & _ & -> & _); cbn [Z.eqb List.length];
          (split; [discriminate|]).
        + pose proof (P (a' + b)%nat). cbn. lia.
        + rewrite Nat.add_succ_r in *. pose proof (P (a + b')%nat). cbn. lia.
      - destruct (fsplits_geometry rnd tolRe tolIm HR _ _ _ HAB Pr Fr) as (PA & PB & FA & FB & SA & SB & _).
        apply est_logs in H1. destruct H1 as (L1 & _ & _ & L2 & _).
        rewrite handled_app, estimated_app, L1, L2. cbn [app Z.eqb List.length].
        destruct (fsplits_below _ _ _ _ _ HAB Pr Fr Cr Hb) as [(a' & -> & HA' & _)|(b' & -> & HA' & _)];
          destruct (IH2 PA FA (corners_sub _ _ SA Cr) _ _ HA') as (I1 & I2 & I3).
        + split; [intro; apply I1; lia|]. cbn [Nat.add Nat.pow]. lia.
        + rewrite Nat.add_succ_r in *. split; [intro; apply I1; lia|]. cbn [Nat.add Nat.pow]. lia.
      - destruct (fsplits_geometry rnd tolRe tolIm HR _ _ _ HAB Pr Fr) as (PA & PB & FA & FB & SA & SB & _).
        apply est_logs in H1. destruct H1 as (L1 & _ & _ & L2 & _).
        apply est_logs in H3. destruct H3 as (L3 & _ & _ & L4 & _).
        rewrite !handled_app, !estimated_app, L1, L2, L3, L4. cbn [Z.eqb].
        rewrite !app_length. cbn [List.length].
        destruct (fsplits_below _ _ _ _ _ HAB Pr Fr Cr Hb) as [(a' & -> & HA' & _)|(b' & -> & HA' & _)];
          destruct (IH2 PA FA (corners_sub _ _ SA Cr) _ _ HA') as (I1 & I2 & I3).
        + split; [discriminate|]. pose proof (P (a' + b)%nat). cbn [Nat.add Nat.pow]. lia.
        + rewrite Nat.add_succ_r in *. split; [discriminate|]. pose proof (P (a + b')%nat). cbn [Nat.add Nat.pow]. lia.
      - destruct (fsplits_geometry rnd tolRe tolIm HR _ _ _ HAB Pr Fr) as (PA & PB & FA & FB & SA & SB & _).
        apply est_logs in H1. destruct H1 as (L1 & _ & _ & L2 & _).
        apply est_logs in H3. destruct H3 as (L3 & _ & _ & L4 & _).
        rewrite !handled_app, !estimated_app, L1, L2, L3, L4. cbn [Z.eqb].
        rewrite !app_length. cbn [List.length].
        destruct (fsplits_below _ _ _ _ _ HAB Pr Fr Cr Hb) as [(a' & -> & HA' & HB')|(b' & -> & HA' & HB')];
          destruct (IH2 PA FA (corners_sub _ _ SA Cr) _ _ HA') as (I1 & I2 & I3);
          destruct (IH4 PB FB (corners_sub _ _ SB Cr) _ _ HB') as (J1 & J2 & J3).
        + split; [intro; apply J1; lia|]. cbn [Nat.add Nat.pow]. lia.
        + rewrite Nat.add_succ_r in *. split; [intro; apply J1; lia|]. cbn [Nat.add Nat.pow]. lia.
    Qed.

    Lemma fl_depth v r s fuel a b s' l o :
      proper r -> float_rect rnd r -> corners_below r ->
      (x2 r - x1 r < inject_Z (2 ^ Z.of_nat a) * tolRe)%Q ->
      (y2 r - y1 r < inject_Z (2 ^ Z.of_nat b) * tolIm)%Q ->
      fcalc v fuel r s = (s', l, o) ->
      ((a + b + 2 < fuel)%nat -> o <> OutOfFuel) /\
      (List.length (handled l) <= 4 * 2 ^ (a + b))%nat /\
      (List.length (estimated l) < 8 * 2 ^ (a + b))%nat.
    Proof.
      intros Pr Fr Cr Ha Hb H.
      assert (U0 : (0 <= u)%Q).
      { assert (Z0 : (Qabs (rnd 0 - 0) <= u)%Q).
        { apply HA. change (Qabs 0) with 0%Q.
          unfold corners_below in Cr. destruct Pr. lra. }
        pose proof (Qabs_nonneg (rnd 0 - 0)). lra. }
      assert (HB : fbelow r (Datatypes.S a) (Datatypes.S b)).
      { unfold fbelow. rewrite !two_S.
        setoid_replace (2 * inject_Z (2 ^ Z.of_nat a) * (tolRe / 2))%Q
          with (inject_Z (2 ^ Z.of_nat a) * tolRe)%Q by field.
        setoid_replace (2 * inject_Z (2 ^ Z.of_nat b) * (tolIm / 2))%Q
          with (inject_Z (2 ^ Z.of_nat b) * tolIm)%Q by field. lra. }
      assert (P : (1 <= 2 ^ (a + b))%nat) by (clear; induction (a + b)%nat; cbn; lia).
      assert (P4 : (2 ^ (Datatypes.S a + Datatypes.S b) = 4 * 2 ^ (a + b))%nat).
      { rewrite Nat.add_succ_r. cbn. lia. }
      apply fcalcRoots_runs in H. destruct H as [(e & H & ->)|(m & l1 & l2 & H1 & H2 & ->)].
      - apply est_logs in H. destruct H as (-> & _ & _ & -> & _). cbn [List.length Z.eqb].
        split; [discriminate|]. lia.
      - destruct (fruns_terminate _ _ _ _ _ _ H2 Pr Fr Cr _ _ HB) as (I1 & I2 & I3).
        rewrite P4 in I2, I3.
        apply est_logs in H1. destruct H1 as (L1 & _ & _ & L2 & _).
        rewrite handled_app, estimated_app, L1, L2. cbn [Z.eqb app List.length].
        split; [intro; apply I1; lia|]. lia.
    Qed.
  End Depth.
End Whole.
