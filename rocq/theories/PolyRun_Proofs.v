(** * The polynomial variant with exact moments (C26) *)
From Coq Require Import Permutation.
From Verif Require Import PyBase Rounding_Model Rounding_Proofs Poly_Model Refine_Model Refine_Spec Poly_Spec
  PolyRun_Spec Poly_Proofs Refine_Proofs Refine_Proofs2.
Open Scope Z_scope.

Lemma zeros_in_iff r zs z : In z (zeros_in r zs) <-> In z zs /\ inside r z.
Proof.
  unfold zeros_in. rewrite filter_In, !andb_true_iff, !Qle_bool_iff. unfold inside. tauto.
Qed.

Lemma power_sum_0 zs : ceq (power_sum zs 0) (inject_Z (Z.of_nat (List.length zs)), 0%Q).
Proof.
  unfold power_sum, csum. induction zs as [|z zs IH]; [split; reflexivity|].
  cbn [map fold_right cpow List.length]. rewrite IH, Nat2Z.inj_succ. unfold Z.succ.
  split; cbn [re im cadd c1 fst snd]; [rewrite inject_Z_plus; ring|ring].
Qed.

Lemma round_exact (x : Q) (n : Z) : (x == inject_Z n)%Q -> round_half_even x = n.
Proof.
  apply round_half_even_int.
Qed.

Lemma same_multiset_in l1 l2 : same_multiset l1 l2 ->
  (forall a, In a l1 -> exists b, In b l2 /\ ceq a b) /\ (forall b, In b l2 -> exists a, In a l1 /\ ceq a b).
Proof.
  intros [l [HP HF]]. split.
  - intros a Ha. apply (Permutation_in _ HP) in Ha. clear HP. induction HF as [|x y l l2 H1 H2 IH]; [destruct Ha|].
    destruct Ha as [Ha|Ha]; [subst x; exists y; split; [left; reflexivity|exact H1]|].
    destruct (IH Ha) as [b [B1 B2]]. exists b. split; [right; exact B1|exact B2].
  - intros b Hb. assert (G : exists a, In a l /\ ceq a b).
    { clear HP. induction HF as [|x y l l2 H1 H2 IH]; [destruct Hb|].
      destruct Hb as [Hb|Hb]; [subst y; exists x; split; [left; reflexivity|exact H1]|].
      destruct (IH Hb) as [a [B1 B2]]. exists a. split; [right; exact B1|exact B2]. }
    destruct G as [a [G1 G2]]. exists a. split; [apply (Permutation_in _ (Permutation_sym HP)), G1|exact G2].
Qed.

Section Exact.
  Context {S : Type} (E : env S) (zeros : list cplx).
  Notation small r := (sub_tolerance (e_precision E) r).
  Hypothesis HS : exact_solver zeros (e_polyroots E).

  Definition origin (q : rect) (c : cplx) (k : Z) : Prop :=
    (proper q /\ small q /\ c = center q /\ k = Z.of_nat (List.length (zeros_in q zeros)) /\ 1 <= k) \/
    (exists rts, same_multiset rts (zeros_in q zeros) /\ In (c, k) (group_roots (e_precision E) rts)).

  Definition found (q : rect) (l : list event) : Prop :=
    (proper q /\ small q /\ In (EvRoot (center q, Z.of_nat (List.length (zeros_in q zeros)))) l) \/
    (exists rts, same_multiset rts (zeros_in q zeros) /\
       forall g, In g (group_roots (e_precision E) rts) -> In (EvRoot g) l).

  Lemma moms_err_in r k n l ms : moms E r k n l ms -> forall e, ms = Err e ->
    exists j, In (EvMoment j r (Err e)) l.
  Proof.
    induction 1 as [k|k n l e H|k n l1 m l2 ms H H' IH|k n l1 m l2 e H H' IH]; intros e' [= <-].
    - exists k. apply est_logs in H. tauto.
    - destruct (IH e eq_refl) as [j J]. exists j. apply in_or_app. right. exact J.
  Qed.

  Lemma est_roots k r l m c o : est E k r l m -> In (EvRoot (c, o)) l -> o = 0.
  Proof.
    intros H Hi. destruct (est_in E _ _ _ _ _ H Hi) as [C|[z [C _]]]; [discriminate|]. congruence.
  Qed.

  Lemma exact_app l1 l2 : exact_moments zeros (l1 ++ l2) -> exact_moments zeros l1 /\ exact_moments zeros l2.
  Proof. intro H. split; intros k q m Hi; apply (H k q m); apply in_or_app; auto. Qed.

  Lemma exact_est r l m : est E 0 r l m -> exact_moments zeros l ->
    exists v, m = Ok v /\ (re v == inject_Z (Z.of_nat (List.length (zeros_in r zeros))))%Q.
  Proof.
    intros H HX. apply est_logs in H. destruct H as (_ & _ & _ & _ & _ & H).
    destruct (HX _ _ _ H) as [v [-> Hv]]. exists v. split; [reflexivity|].
    cbn [Z.to_nat] in Hv. rewrite power_sum_0 in Hv. exact (proj1 Hv).
  Qed.

  Lemma runs_poly_exact n r phi l o : runs E PolyV n r phi l o -> proper r ->
    (phi == inject_Z (Z.of_nat (List.length (zeros_in r zeros))))%Q -> exact_moments zeros l ->
    o <> OutOfFuel -> e_has_df E = true ->
    o = Done tt /\
    (forall z, In z zeros -> inside r z -> exists q, sub_rect q r /\ inside q z /\ found q l) /\
    (forall c k, In (EvRoot (c, k)) l -> k <> 0 -> exists q, sub_rect q r /\ origin q c k).
  Proof.
    remember PolyV as v eqn:Ev. intro H. revert Ev.
    induction H as [r phi|n r phi Hv Hdf|n r phi Hdf Hp|n r phi Hdf Hp Hs|n r phi l o Hv Hs Hz HN
      |n r phi l o Hv Hdf Hs Hz HP|n r phi A B l e Hdf Hp Hz HAB H1
      |n r phi A B l1 m l2 o Hdf Hp Hz HAB H1 H2 IH2 Ho
      |n r phi A B l1 m l2 l3 e Hdf Hp Hz HAB H1 H2 IH2 H3
      |n r phi A B l1 m l2 l3 m2 l4 o Hdf Hp Hz HAB H1 H2 IH2 H3 H4 IH4];
      intros Ev Hr Hg HX Hf Hd; try congruence.
    - (* discard *)
      split; [reflexivity|]. split.
      + intros z Hz Hi. exfalso.
        assert (Hin : In z (zeros_in r zeros)) by (apply zeros_in_iff; auto).
        destruct (zeros_in r zeros) as [|w ws]; [destruct Hin|]. cbn [List.length] in Hg.
        rewrite Nat2Z.inj_succ in Hg. unfold Z.succ in Hg. rewrite inject_Z_plus in Hg.
        assert (0 <= inject_Z (Z.of_nat (List.length ws)))%Q by (change 0%Q with (inject_Z 0); rewrite <- Zle_Qle; lia).
        unfold TWO_PI in Hp. change (inject_Z 1) with 1%Q in Hg. lra.
      + intros c k [C|C]; [discriminate|]. apply in_adv in C. destruct C as [_ C]. discriminate.
    - (* report *)
      assert (Hrd : round_half_even phi = Z.of_nat (List.length (zeros_in r zeros))) by (apply round_exact, Hg).
      assert (Hpos : 1 <= Z.of_nat (List.length (zeros_in r zeros))).
      { destruct (zeros_in r zeros) as [|w ws]; [|cbn [List.length]; lia].
        change (inject_Z (Z.of_nat (List.length (@nil cplx)))) with 0%Q in Hg. unfold TWO_PI in Hp. lra. }
      split; [reflexivity|]. split.
      + intros z Hz Hi. exists r. split; [apply sub_rect_refl|]. split; [exact Hi|].
        left. split; [exact Hr|]. split; [exact Hs|]. right. left. rewrite Hrd. reflexivity.
      + intros c k [C|[C|C]] Hk; [discriminate| |apply in_adv in C; destruct C as [_ C]; discriminate].
        inversion C; subst c k. exists r. split; [apply sub_rect_refl|]. left. rewrite Hrd. auto.
    - (* polynomial *)
      assert (Hrd : round_half_even phi = Z.of_nat (List.length (zeros_in r zeros))) by (apply round_exact, Hg).
      destruct HP as (l1 & ms & HM & K). rewrite Hrd, Nat2Z.id in HM.
      assert (HX1 : exact_moments zeros l1).
      { destruct ms as [ms|e]; [destruct (e_polyroots E _) as [rts|e]|]; destruct K as [K1 K2]; subst; auto.
        apply exact_app in HX. tauto. }
      destruct ms as [ms|e].
      2:{ exfalso. destruct (moms_err_in _ _ _ _ _ HM e eq_refl) as [j J].
          destruct (HX1 _ _ _ J) as [v' [C _]]. discriminate. }
      destruct (moms_values E _ _ _ _ _ HM) as [ML MI].
      assert (HP : poly_eq ms (power_sums (zeros_in r zeros))).
      { apply poly_eq_nth.
        - unfold power_sums. rewrite map_length, seq_length. exact ML.
        - intros i Hi. rewrite ML in Hi. destruct (HX1 _ _ _ (MI i Hi)) as [v' [C HC]]. injection C as C. subst v'.
          rewrite HC. unfold power_sums.
          rewrite (nth_indep _ c0 (power_sum (zeros_in r zeros) 0)) by (rewrite map_length, seq_length; exact Hi).
          rewrite map_nth, seq_nth by exact Hi. replace (Z.to_nat (1 + Z.of_nat i)) with (1 + i)%nat by lia. reflexivity. }
      destruct (recovery zeros (e_polyroots E) _ _ HS HP) as [rts [ER HR]]. rewrite ER in K. destruct K as [K1 K2]. subst o l.
      split; [reflexivity|]. split.
      + intros z Hz' Hi. exists r. split; [apply sub_rect_refl|]. split; [exact Hi|].
        right. exists rts. split; [exact HR|]. intros g G. apply in_or_app. right. right. apply in_or_app. left.
        apply in_map, G.
      + intros c k Hi Hk. apply in_app_or in Hi. destruct Hi as [Hi|Hi].
        * exfalso. destruct (moms_in E _ _ _ _ _ _ HM Hi) as [(j & m & _ & C)|(z & C & _)]; congruence.
        * destruct Hi as [C|Hi]; [discriminate|]. apply in_app_or in Hi. destruct Hi as [Hi|Hi].
          -- apply in_map_iff in Hi. destruct Hi as [g [G1 G2]]. injection G1 as G1. subst g.
             exists r. split; [apply sub_rect_refl|]. right. exists rts. auto.
          -- apply in_adv in Hi. destruct Hi as [_ C]. discriminate.
    - destruct (exact_est _ _ _ H1 HX) as [v' [C _]]. discriminate.
    - apply exact_app in HX. destruct HX as [G1 G2].
      destruct (splits_geometry E _ _ _ HAB Hr) as (PA & PB & SA & SB & _).
      destruct (exact_est _ _ _ H1 G1) as [v' [C GA]]. injection C as C. subst v'.
      destruct (IH2 Ev PA GA G2 Hf Hd) as (-> & _). contradiction.
    - apply exact_app in HX. destruct HX as [_ G]. apply exact_app in G. destruct G as [_ G].
      destruct (exact_est _ _ _ H3 G) as [v' [C _]]. discriminate.
    - apply exact_app in HX. destruct HX as [G1 G]. apply exact_app in G. destruct G as [G2 G].
      apply exact_app in G. destruct G as [G3 G4].
      destruct (splits_geometry E _ _ _ HAB Hr) as (PA & PB & SA & SB & HC).
      destruct (exact_est _ _ _ H1 G1) as [v' [C GA]]. injection C as C. subst v'.
      destruct (exact_est _ _ _ H3 G3) as [v' [C GB]]. injection C as C. subst v'.
      destruct (IH2 Ev PA GA G2 ltac:(discriminate) Hd) as (_ & Z2 & O2).
      destruct (IH4 Ev PB GB G4 Hf Hd) as (Ho & Z4 & O4).
      assert (mono : forall q a b, (forall x, In x a -> In x b) -> found q a -> found q b).
      { intros q a b HI [F|(rts & F1 & F2)]; [left|right; exists rts]; intuition. }
      split; [exact Ho|]. split.
      + intros z Hzz Hin.
        assert (HH : inside A z \/ inside B z).
        { destruct HAB as [_ [(_ & -> & ->)|(_ & -> & ->)]]; destruct Hin as [I1 I2]; unfold inside; cbn [x1 x2 y1 y2].
          - destruct (Qlt_le_dec (re z) ((x1 r + x2 r) / 2)); [left|right]; repeat split; lra.
          - destruct (Qlt_le_dec (im z) ((y1 r + y2 r) / 2)); [left|right]; repeat split; lra. }
        destruct HH as [Hi|Hi].
        * destruct (Z2 z Hzz Hi) as (q & Q1 & Q2 & Q3). exists q. split; [eapply sub_rect_trans; eassumption|].
          split; [exact Q2|]. eapply mono; [|exact Q3]. intros x Hx. rewrite !in_app_iff. tauto.
        * destruct (Z4 z Hzz Hi) as (q & Q1 & Q2 & Q3). exists q. split; [eapply sub_rect_trans; eassumption|].
          split; [exact Q2|]. eapply mono; [|exact Q3]. intros x Hx. rewrite !in_app_iff. tauto.
      + intros c k Hi Hk. rewrite !in_app_iff in Hi. destruct Hi as [Hi|[Hi|[Hi|Hi]]].
        * exfalso. apply Hk. eapply est_roots; [exact H1|exact Hi].
        * destruct (O2 c k Hi Hk) as [q [Q1 Q2]]. exists q. split; [eapply sub_rect_trans; eassumption|exact Q2].
        * exfalso. apply Hk. eapply est_roots; [exact H3|exact Hi].
        * destruct (O4 c k Hi Hk) as [q [Q1 Q2]]. exists q. split; [eapply sub_rect_trans; eassumption|exact Q2].
  Qed.
End Exact.

Lemma within_ceq p a b c : within p a b -> ceq a c -> within p c b.
Proof.
  intros [H1 H2] [E1 E2]. split; [rewrite <- E1|rewrite <- E2]; assumption.
Qed.

Lemma center_within p q z : proper q -> sub_tolerance p q -> inside q z -> within p (center q) z.
Proof.
  intros [Hx Hy] [S1 S2] [Z1 Z2]. unfold within, center. unfold re, im in *. cbn [fst snd] in *.
  split; apply Qabs_Qlt_condition; split; unfold Qdiv; change (/ 2)%Q with (1#2)%Q; try lra.
Qed.

Lemma count_of_ext {A} (P P' : A -> Prop) l n : (forall a, In a l -> P a <-> P' a) ->
  count_of P l n -> count_of P' l n.
Proof.
  intros H HC. induction HC as [|a l n Ha HC IH|a l n Ha HC IH].
  - constructor.
  - apply count_yes; [apply H; [left; reflexivity|exact Ha]|]. apply IH. intros b Hb. apply H. right; exact Hb.
  - apply count_no; [intro C; apply Ha, H; [left; reflexivity|exact C]|].
    apply IH. intros b Hb. apply H. right; exact Hb.
Qed.

Lemma count_of_multiset (P : cplx -> Prop) l1 l2 n : (forall a b, ceq a b -> P a <-> P b) ->
  same_multiset l1 l2 -> count_of P l1 n -> count_of P l2 n.
Proof.
  intros HP [l [H1 H2]] HC. apply (count_of_perm _ _ _ H1) in HC. clear H1.
  revert n HC. induction H2 as [|a b l l2 Hab H2 IH]; intros n HC; inversion HC; subst.
  - constructor.
  - apply count_yes; [apply (HP a b Hab); assumption|auto].
  - apply count_no; [intro C; apply (HP a b Hab) in C; contradiction|auto].
Qed.

Lemma count_of_filter {A} (P : A -> Prop) (f : A -> bool) l n :
  (forall a, In a l -> P a -> f a = true) -> count_of P (filter f l) n -> count_of P l n.
Proof.
  revert n. induction l as [|a l IH]; intros n H HC; cbn [filter] in HC; [exact HC|].
  assert (H' : forall b, In b l -> P b -> f b = true) by (intros b Hb; apply H; right; exact Hb).
  destruct (f a) eqn:Ea.
  - inversion HC; subst; [apply count_yes|apply count_no]; auto.
  - apply count_no; [|auto]. intro C. apply (H a) in C; [congruence|left; reflexivity].
Qed.

Lemma inside_ceq q a b : ceq a b -> inside q a -> inside q b.
Proof. intros [E1 E2] [H1 H2]. unfold inside. rewrite <- E1, <- E2. auto. Qed.

Lemma zeros_in_filter q zeros a : In a zeros -> inside q a ->
  (fun z => Qle_bool (x1 q) (re z) && Qle_bool (re z) (x2 q) &&
            Qle_bool (y1 q) (im z) && Qle_bool (im z) (y2 q)) a = true.
Proof. intros Ha [[H1 H2] [H3 H4]]. rewrite !andb_true_iff, !Qle_bool_iff. auto. Qed.

Lemma origin_facts {S} (E : env S) zeros q c k : origin E zeros q c k ->
  1 <= k /\
  ((exists z, In z zeros /\ inside q z /\ ceq c z) \/
   (sub_tolerance (e_precision E) q /\ proper q /\ c = center q /\ k = Z.of_nat (List.length (zeros_in q zeros)))).
Proof.
  intros [(H1 & H2 & H3 & H4 & H5)|(rts & H1 & H2)].
  - split; [exact H5|right; auto].
  - destruct (partition_facts _ _ _ (group_partitions (e_precision E) rts)) as [F1 _].
    destruct (F1 c k H2) as [K1 K2]. split; [exact K1|]. left.
    destruct (same_multiset_in _ _ H1) as [M1 _]. destruct (M1 c K2) as [z [Z1 Z2]].
    exists z. apply zeros_in_iff in Z1. tauto.
Qed.

Lemma origin_order {S} (E : env S) zeros q c k : origin E zeros q c k ->
  (forall a b, In a zeros -> In b zeros -> within (e_precision E) a b -> ceq a b) ->
  exists z, In z zeros /\ inside q z /\ within (e_precision E) c z /\ count_of (ceq z) zeros k.
Proof.
  intros [(H1 & H2 & H3 & H4 & H5)|(rts & H1 & H2)] Sep.
  - destruct (zeros_in q zeros) as [|z ws] eqn:Ez; [cbn in H4; lia|].
    assert (Hz : In z (zeros_in q zeros)) by (rewrite Ez; left; reflexivity).
    apply zeros_in_iff in Hz. destruct Hz as [Z1 Z2]. exists z.
    split; [exact Z1|]. split; [exact Z2|]. subst c. split; [apply center_within; assumption|].
    eapply (count_of_filter _ _ zeros k).
    + intros a Ha Hc. apply (zeros_in_filter q zeros a Ha). eapply inside_ceq; [exact Hc|exact Z2].
    + fold (zeros_in q zeros). rewrite Ez, H4. apply count_of_all. intros a Ha.
      rewrite <- Ez in Ha. apply zeros_in_iff in Ha. destruct Ha as [A1 A2].
      apply Sep; [exact Z1|exact A1|].
      destruct H1 as [X Y]. destruct H2 as [S1 S2]. destruct Z2 as [Z21 Z22]. destruct A2 as [A21 A22].
      split; apply Qabs_Qlt_condition; split; lra.
  - destruct (partition_facts _ _ _ (group_partitions (e_precision E) rts)) as [F1 _].
    destruct (F1 c k H2) as [K1 K2].
    destruct (same_multiset_in _ _ H1) as [M1 _]. destruct (M1 c K2) as [z [Z1 Z2]].
    apply zeros_in_iff in Z1. destruct Z1 as [Z1 Z1']. exists z. split; [exact Z1|]. split; [exact Z1'|].
    assert (Wcz : within (e_precision E) c z).
    { apply (within_ceq _ z); [apply within_refl|symmetry; exact Z2]. }
    split; [exact Wcz|].
    assert (W : forall a b, In a rts -> In b rts -> within (e_precision E) a b -> ceq a b).
    { intros a b Ha Hb Wab. destruct (M1 a Ha) as [a' [A1 A2]]. destruct (M1 b Hb) as [b' [B1 B2]].
      apply zeros_in_iff in A1, B1. rewrite A2, B2. apply Sep; [tauto|tauto|].
      eapply within_ceq; [|exact A2]. apply within_sym. eapply within_ceq; [|exact B2]. apply within_sym. exact Wab. }
    assert (T : transitive_on (e_precision E) rts).
    { intros a b d Ha Hb Hd W1 W2. pose proof (W a b Ha Hb W1) as E1.
      eapply within_ceq; [exact W2|symmetry; exact E1]. }
    pose proof (group_clusters (e_precision E) rts T c k H2) as C.
    apply (count_of_ext _ (ceq z)) in C.
    2:{ intros a Ha. split.
        - intro Wa. rewrite <- Z2. apply W; assumption.
        - intro Ea. eapply within_ceq; [|symmetry; exact Z2]. apply within_sym.
          eapply within_ceq; [apply within_refl|exact Ea]. }
    apply (count_of_multiset (ceq z) _ _ _) with (2 := H1) in C.
    2:{ intros a b Hab. rewrite Hab. tauto. }
    eapply count_of_filter; [|exact C].
    intros a Ha Hc. apply (zeros_in_filter q zeros a Ha). eapply inside_ceq; [exact Hc|exact Z1'].
Qed.

Lemma C26_exact_lemma {S} (E : env S) zeros fuel r s s' l o : proper r -> e_has_df E = true ->
  calcRoots E PolyV fuel r s = (s', l, o) -> o <> OutOfFuel ->
  exact_solver zeros (e_polyroots E) -> exact_moments zeros l ->
  o = Done tt /\
  (forall z, In z zeros -> inside r z ->
     exists c k, In (c, k) (roots_of l) /\ 1 <= k /\ within (e_precision E) c z) /\
  (forall c k, In (c, k) (roots_of l) -> k <> 0 -> 1 <= k /\
     ((exists z, In z zeros /\ inside r z /\ ceq c z) \/
      (exists q, sub_rect q r /\ sub_tolerance (e_precision E) q /\ c = center q /\
         k = Z.of_nat (List.length (zeros_in q zeros))))) /\
  ((forall a b, In a zeros -> In b zeros -> within (e_precision E) a b -> ceq a b) ->
   forall c k, In (c, k) (roots_of l) -> k <> 0 ->
     exists z, In z zeros /\ inside r z /\ within (e_precision E) c z /\ count_of (ceq z) zeros k).
Proof.
  intros Hr Hd H Ho HS HX. apply calcRoots_runs in H.
  destruct H as [(e & H & ->)|(m & l1 & l2 & H1 & H2 & ->)].
  { destruct (exact_est E zeros _ _ _ H HX) as [v [C _]]. discriminate. }
  apply exact_app in HX. destruct HX as [G1 G2].
  destruct (exact_est E zeros _ _ _ H1 G1) as [v [C GA]]. injection C as C. subst v.
  destruct (runs_poly_exact E zeros HS _ _ _ _ _ H2 Hr GA G2 Ho Hd) as (Hdone & HF & HO).
  assert (Sub : forall q z, sub_rect q r -> inside q z -> inside r z).
  { intros q z (A1 & A2 & A3 & A4) ([B1 B2] & [B3 B4]). unfold inside. repeat split; lra. }
  assert (Or : forall c k, In (c, k) (roots_of (l1 ++ l2)) -> k <> 0 -> exists q, sub_rect q r /\ origin E zeros q c k).
  { intros c k Hi Hk. apply in_roots_of in Hi. apply in_app_or in Hi. destruct Hi as [Hi|Hi].
    - exfalso. apply Hk. eapply est_roots; [exact H1|exact Hi].
    - apply HO; assumption. }
  split; [exact Hdone|]. split; [|split].
  - intros z Hz Hi. destruct (HF z Hz Hi) as (q & Q1 & Q2 & Q3).
    destruct Q3 as [(F0 & F1 & F2)|(rts & F1 & F2)].
    + exists (center q), (Z.of_nat (List.length (zeros_in q zeros))).
      split; [apply in_roots_of, in_or_app; right; exact F2|].
      assert (Hin : In z (zeros_in q zeros)) by (apply zeros_in_iff; auto).
      split; [destruct (zeros_in q zeros); [destruct Hin|cbn [List.length]; lia]|].
      apply center_within; assumption.
    + destruct (same_multiset_in _ _ F1) as [_ M2].
      destruct (M2 z) as [a [A1 A2]]; [apply zeros_in_iff; auto|].
      destruct (partition_facts _ _ _ (group_partitions (e_precision E) rts)) as (P1 & _ & P3).
      destruct (P3 a A1) as (b & k & B1 & B2). exists b, k.
      split; [apply in_roots_of, in_or_app; right; apply F2, B1|].
      split; [apply (P1 b k B1)|]. apply within_sym. eapply within_ceq; [exact B2|exact A2].
  - intros c k Hi Hk. destruct (Or c k Hi Hk) as [q [Q1 Q2]].
    destruct (origin_facts E zeros q c k Q2) as [K1 [(z & Z1 & Z2 & Z3)|(K2 & K3 & K4 & K5)]].
    + split; [exact K1|]. left. exists z. split; [exact Z1|]. split; [apply (Sub q z Q1 Z2)|exact Z3].
    + split; [exact K1|]. right. exists q. auto.
  - intros Sep c k Hi Hk. destruct (Or c k Hi Hk) as [q [Q1 Q2]].
    destruct (origin_order E zeros q c k Q2 Sep) as (z & Z1 & Z2 & Z3 & Z4).
    exists z. split; [exact Z1|]. split; [apply (Sub q z Q1 Z2)|auto].
Qed.
