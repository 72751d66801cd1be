(** Grouping of the roots of associated polynomials. *)
From Coq Require Import Permutation Reals Qreals Qminmax.
From Verif Require Import PyBase Rounding_Model Rounding_Proofs Container_Model Container_Spec
  Container_Proofs Finder_Model Finder_Spec Finder_Proofs Poly_Model Poly_Proofs Refine_Model Refine_Spec
  Refine_Proofs Refine_Proofs2 Zeros_Spec Zeros_Proofs Refine_Proofs3 EndToEnd_Model EndToEnd_Spec
  EndToEnd_Proofs Assist_Proofs.
From Verif Require Poly_Spec.
Open Scope Z_scope.

Lemma F2_perm {A B} (R : A -> B -> Prop) l1 l2 : Permutation l1 l2 -> forall k1, Forall2 R l1 k1 ->
  exists k2, Permutation k1 k2 /\ Forall2 R l2 k2.
Proof.
  induction 1 as [|x l l' H IH|x y l|l l' l'' H1 IH1 H2 IH2]; intros k1 F.
  - inversion F; subst. exists []. split; constructor.
  - inversion F as [|? b ? k F1 F2]; subst. destruct (IH _ F2) as (k2 & P & Q). exists (b :: k2). split; [constructor; exact P|constructor; assumption].
  - inversion F as [|? b ? k F1 F2]; subst. inversion F2 as [|? c ? k' F3 F4]; subst.
    exists (c :: b :: k'). split; [apply perm_swap|]. repeat constructor; assumption.
  - destruct (IH1 _ F) as (k2 & P2 & F2). destruct (IH2 _ F2) as (k3 & P3 & F3).
    exists k3. split; [eapply perm_trans; eassumption|exact F3].
Qed.
Lemma F2_concat {A B} (R : A -> B -> Prop) (ls : list (list A)) : forall k, Forall2 R (List.concat ls) k ->
  exists ks, List.concat ks = k /\ Forall2 (Forall2 R) ls ks.
Proof.
  induction ls as [|l ls IH]; intros k F; cbn [List.concat] in F.
  - inversion F; subst. exists []. split; [reflexivity|constructor].
  - apply Forall2_app_inv_l in F. destruct F as (k1 & k2 & F1 & F2 & ->). destruct (IH _ F2) as (ks & <- & F3).
    exists (k1 :: ks). split; [reflexivity|constructor; assumption].
Qed.
Lemma F2_in_r {A B} (R : A -> B -> Prop) l l' : Forall2 R l l' -> forall b, In b l' -> exists a, In a l /\ R a b.
Proof.
  induction 1 as [|x y l l' H1 H2 IH]; [intros b []|]. intros b [<-|H]; [exists x; split; [left; reflexivity|exact H1]|].
  destruct (IH b H) as (a & A1 & A2). exists a. split; [right; exact A1|exact A2].
Qed.
Lemma F2_in_l {A B} (R : A -> B -> Prop) l l' : Forall2 R l l' -> forall a, In a l -> exists b, In b l' /\ R a b.
Proof.
  induction 1 as [|x y l l' H1 H2 IH]; [intros b []|]. intros b [<-|H]; [exists y; split; [left; reflexivity|exact H1]|].
  destruct (IH b H) as (a & A1 & A2). exists a. split; [right; exact A1|exact A2].
Qed.
Lemma F2_length {A B} (R : A -> B -> Prop) l l' : Forall2 R l l' -> List.length l = List.length l'.
Proof. induction 1; cbn; congruence. Qed.

Lemma map_fst_combine' {A B} (l : list A) : forall k : list B, List.length l = List.length k -> map fst (combine l k) = l.
Proof. induction l as [|a l IH]; intros [|b k] H; try discriminate; [reflexivity|]. cbn. f_equal. apply IH. injection H as H. exact H. Qed.
Lemma map_snd_combine' {A B} (l : list A) : forall k : list B, List.length l = List.length k -> map snd (combine l k) = k.
Proof. induction l as [|a l IH]; intros [|b k] H; try discriminate; [reflexivity|]. cbn. f_equal. apply IH. injection H as H. exact H. Qed.

(** A report with the zeros it stands for. *)
Definition bundle (P : Z * Z) (g : root) (zc : list point) : Prop :=
  snd g = Z.of_nat (List.length zc) /\ (exists z, In z zc /\ near P (fst g) z) /\
  forall z, In z zc -> exists a, near P a z /\ Poly_Spec.within P a (fst g).

Lemma bundles P ws zs' : Forall2 (near P) ws zs' ->
  exists zcs, Permutation (List.concat zcs) zs' /\ Forall2 (bundle P) (group_roots P ws) zcs.
Proof.
  intro F. destruct (group_partitions P ws) as (cls & HP & HF).
  destruct (F2_perm _ _ _ (Permutation_sym HP) _ F) as (k2 & P2 & F2).
  destruct (F2_concat _ _ _ F2) as (zcs & <- & F3). exists zcs. split; [symmetry; exact P2|].
  clear - HF F3. revert zcs F3. induction HF as [|g cl gs cls (H1 & H2 & H3) HF IH]; intros zcs F3.
  - inversion F3; subst. constructor.
  - inversion F3 as [|? zc ? zcs' F4 F5]; subst. constructor; [|apply IH, F5].
    split; [|split].
    + rewrite H1. f_equal. exact (F2_length _ _ _ F4).
    + destruct (F2_in_l _ _ _ F4 _ H2) as (z & Hz & N). exists z. auto.
    + intros z Hz. destruct (F2_in_r _ _ _ F4 _ Hz) as (a & Ha & N). exists a. split; [exact N|apply H3, Ha].
Qed.

Lemma Q2R_abs q : Q2R (Qabs q) = Rabs (Q2R q).
Proof.
  apply Qabs_case; intro H; apply Qle_Rle in H; replace (Q2R 0) with 0%R in H by (unfold Q2R; cbn; Lra.lra).
  - rewrite Rabs_right; [reflexivity|Lra.lra].
  - rewrite Q2R_opp, Rabs_left1; [reflexivity|exact H].
Qed.
Lemma pw_R P a b : Poly_Spec.within P a b ->
  (Rabs (Q2R (re a) - Q2R (re b)) < Q2R (pow10 (- fst P)) /\ Rabs (Q2R (im a) - Q2R (im b)) < Q2R (pow10 (- snd P)))%R.
Proof.
  intros [A B]. apply Qlt_Rlt in A, B. rewrite Q2R_abs, Q2R_minus in A, B. auto.
Qed.
Lemma near_pw P a b z : near P a z -> near P b z -> Poly_Spec.within P a b.
Proof.
  intros [A1 A2] [B1 B2]. split; apply Rlt_Qlt; rewrite Q2R_abs, Q2R_minus.
  - replace (Q2R (re a) - Q2R (re b))%R with (- (fst z - Q2R (re a)) + (fst z - Q2R (re b)))%R by ring.
    eapply Rle_lt_trans; [apply Rabs_triang|]. rewrite Rabs_Ropp. Lra.lra.
  - replace (Q2R (im a) - Q2R (im b))%R with (- (snd z - Q2R (im a)) + (snd z - Q2R (im b)))%R by ring.
    eapply Rle_lt_trans; [apply Rabs_triang|]. rewrite Rabs_Ropp. Lra.lra.
Qed.
Lemma pw_within P a b z : near P a z -> Poly_Spec.within P a b -> within (3 / 2) P b z.
Proof.
  intros [A1 A2] W. apply pw_R in W. destruct W as [W1 W2]. split.
  - replace (fst z - Q2R (re b))%R with ((fst z - Q2R (re a)) + (Q2R (re a) - Q2R (re b)))%R by ring.
    eapply Rle_trans; [apply Rabs_triang|]. Lra.lra.
  - replace (snd z - Q2R (im b))%R with ((snd z - Q2R (im a)) + (Q2R (im a) - Q2R (im b)))%R by ring.
    eapply Rle_trans; [apply Rabs_triang|]. Lra.lra.
Qed.
Lemma pw_same P a b z z0 zeros : separated 2 P zeros -> In z zeros -> In z0 zeros ->
  near P a z -> Poly_Spec.within P a b -> near P b z0 -> z = z0.
Proof.
  intros Hs Hz H0 A W B0. pose proof (pw_within P a b z A W) as [W1 W2]. destruct B0 as [B1 B2].
  apply Hs; [exact Hz|exact H0| |].
  - replace (fst z - fst z0)%R with ((fst z - Q2R (re b)) + - (fst z0 - Q2R (re b)))%R by ring.
    eapply Rle_trans; [apply Rabs_triang|]. rewrite Rabs_Ropp. Lra.lra.
  - replace (snd z - snd z0)%R with ((snd z - Q2R (im b)) + - (snd z0 - Q2R (im b)))%R by ring.
    eapply Rle_trans; [apply Rabs_triang|]. rewrite Rabs_Ropp. Lra.lra.
Qed.

Lemma occ_all (dec : forall a b : point, {a = b} + {a <> b}) z l : (forall y, In y l -> y = z) -> count_occ dec l z = List.length l.
Proof.
  induction l as [|a l IH]; intro H; [reflexivity|]. cbn [count_occ List.length]. rewrite (H a (or_introl eq_refl)).
  destruct (dec z z) as [_|C]; [|congruence]. f_equal. apply IH. intros y Hy. apply H. right. exact Hy.
Qed.
Lemma occ_filter (dec : forall a b : point, {a = b} + {a <> b}) q z zeros : zin q z ->
  count_occ dec (filter (zinb q) zeros) z = count_occ dec zeros z.
Proof.
  intro Hz. induction zeros as [|a zeros IH]; [reflexivity|]. cbn [filter count_occ].
  destruct (dec a z) as [->|N].
  - assert (E : zinb q z = true) by (apply zinb_true, Hz). rewrite E. cbn [count_occ].
    destruct (dec z z) as [_|C]; [|congruence]. rewrite IH. reflexivity.
  - destruct (zinb q a); [|exact IH]. cbn [count_occ]. destruct (dec a z); [congruence|exact IH].
Qed.

Section Grouped.
  Variables (zeros : list point) (P : Z * Z) (q : rect) (ws : list cplx) (zs' : list point).
  Hypothesis Hm : Forall2 (near P) ws zs'.
  Hypothesis Hp : Permutation zs' (filter (zinb q) zeros).

  Lemma grouped_gen (t : R) (sep : Prop) : (sep -> separated 2 P zeros) -> (3 / 2 <= t \/ (1 / 2 <= t /\ separated 2 P zeros))%R ->
    exists ts, spotted t zeros P q sep sep (group_roots P ws) ts.
  Proof.
    intros Hsep Ht. destruct (bundles P ws zs' Hm) as (zcs & HP & HF).
    pose proof (group_separated P ws) as HS. set (gs := group_roots P ws) in *. clearbody gs.
    assert (Hin : forall z zc, In zc zcs -> In z zc -> In z zeros /\ zin q z).
    { intros z zc H1 H2. assert (X : In z (List.concat zcs)) by (apply in_concat; exists zc; auto).
      apply (Permutation_in _ HP) in X. apply (Permutation_in _ Hp) in X. apply filter_In in X.
      destruct X as [X1 X2]. apply zinb_true in X2. auto. }
    set (ts := flat_map (fun gz : root * list point => map (fun z => (z, fst gz)) (snd gz)) (combine gs zcs)).
    assert (HT : forall z g, In (z, g) ts <-> exists zc, In (g, zc) (combine gs zcs) /\ In z zc).
    { intros z g. unfold ts. rewrite in_flat_map. split.
      - intros ([g' zc] & H1 & H2). cbn [fst snd] in H2. apply in_map_iff in H2. destruct H2 as (z' & E & H2).
        injection E as -> ->. exists zc. auto.
      - intros (zc & H1 & H2). exists (g, zc). split; [exact H1|]. cbn [fst snd]. apply in_map_iff. exists z. auto. }
    assert (HC : forall g zc, In (g, zc) (combine gs zcs) -> In g gs /\ In zc zcs /\ bundle P g zc).
    { clear - HF. induction HF as [|g zc gs zcs H HF IH]; [intros g zc []|].
      intros g' zc' [E|H']; [injection E as <- <-|destruct (IH _ _ H') as (A & B & C)]; cbn; auto. }
    assert (HG : forall g, In g gs -> exists zc, In (g, zc) (combine gs zcs)).
    { clear - HF. induction HF as [|g zc gs zcs H HF IH]; [intros g []|].
      intros g' [<-|H']; [exists zc; left; reflexivity|]. destruct (IH _ H') as (zc' & X). exists zc'. right. exact X. }
    assert (HZ : forall zc, In zc zcs -> exists g, In (g, zc) (combine gs zcs)).
    { clear - HF. induction HF as [|g zc gs zcs H HF IH]; [intros g []|].
      intros zc' [<-|H']; [exists g; left; reflexivity|]. destruct (IH _ H') as (g' & X). exists g'. right. exact X. }
    assert (HN : separated 2 P zeros -> forall g zc z, In (g, zc) (combine gs zcs) -> In z zc -> near P (fst g) z /\ forall z', In z' zc -> z' = z).
    { intros Hs g zc z H Hz. destruct (HC g zc H) as (G1 & G2 & (_ & (z0 & Z0 & N0) & Hall)).
      assert (X : forall z', In z' zc -> z' = z0).
      { intros z' Hz'. destruct (Hall z' Hz') as (a & N & W).
        exact (pw_same P a (fst g) z' z0 zeros Hs (proj1 (Hin z' zc G2 Hz')) (proj1 (Hin z0 zc G2 Z0)) N W N0). }
      rewrite (X z Hz). split; [exact N0|exact X]. }
    exists ts. split.
    - intro r. split.
      + intro H. destruct (HG r H) as (zc & X). destruct (HC _ _ X) as (_ & _ & (_ & (z & Hz & _) & _)).
        exists z. apply HT. exists zc. auto.
      + intros (z & H). apply HT in H. destruct H as (zc & X & _). apply (HC _ _ X).
    - intros z c k H. apply HT in H. destruct H as (zc & X & Hz). destruct (HC _ _ X) as (G1 & G2 & (Hk & H0 & Hall)).
      destruct (Hin z zc G2 Hz) as [I1 I2]. split; [exact I1|]. split; [exact I2|].
      cbn [fst snd] in Hk, H0, Hall. split; [|split].
      + destruct zc; [destruct Hz|]. cbn [List.length] in Hk. lia.
      + pose proof (Q2R_pow10_pos (- fst P)) as T1. pose proof (Q2R_pow10_pos (- snd P)) as T2.
        destruct Ht as [Ht|[Ht Hs]].
        * destruct (Hall z Hz) as (a & N & W). pose proof (pw_within P a c z N W) as [W1 W2].
          split; (eapply Rle_trans; [eassumption|]; apply Rmult_le_compat_r; Lra.lra).
        * destruct (HN Hs _ _ z X Hz) as [N _]. cbn [fst] in N. apply near_within in N. destruct N as [W1 W2].
          split; (eapply Rle_trans; [eassumption|]; apply Rmult_le_compat_r; Lra.lra).
      + intros Hs dec. apply Hsep in Hs. rewrite Hk. f_equal. rewrite <- (occ_filter dec q z zeros I2).
        assert (PC : Permutation (List.concat zcs) (filter (zinb q) zeros)) by (eapply perm_trans; eassumption).
        rewrite <- (Permutation_count_occ dec) in PC || rewrite (Permutation_count_occ dec) in PC.
        rewrite <- PC. destruct (HN Hs _ _ z X Hz) as [Nz Hzc]. cbn [fst] in Nz.
        destruct (in_split _ _ X) as (l1 & l2 & E).
        assert (Eg : gs = map fst l1 ++ (c, k) :: map fst l2).
        { rewrite <- (map_fst_combine' gs zcs) by exact (F2_length _ _ _ HF). rewrite E, map_app. reflexivity. }
        assert (Ez : zcs = map snd l1 ++ zc :: map snd l2).
        { rewrite <- (map_snd_combine' gs zcs) by exact (F2_length _ _ _ HF). rewrite E, map_app. reflexivity. }
        rewrite Eg in HS. apply FOP_split in HS. destruct HS as [S1 S2].
        assert (Other : forall g' zc', In (g', zc') l1 \/ In (g', zc') l2 -> ~ In z zc').
        { intros g' zc' Hl Hz'. assert (X' : In (g', zc') (combine gs zcs)).
          { rewrite E. apply in_or_app. destruct Hl; [left|right; right]; assumption. }
          destruct (HN Hs _ _ z X' Hz') as [N' _]. destruct Hl as [Hl|Hl].
          - apply (S1 g'); [apply in_map_iff; exists (g', zc'); auto|]. exact (near_pw P _ _ z N' Nz).
          - apply (S2 g'); [apply in_map_iff; exists (g', zc'); auto|]. exact (near_pw P _ _ z Nz N'). }
        assert (None : forall l : list (root * list point), (forall g' zc', In (g', zc') l -> ~ In z zc') -> count_occ dec (List.concat (map snd l)) z = 0%nat).
        { intros l Hl. apply count_occ_not_In. intro C. apply in_concat in C. destruct C as (zc' & C1 & C2).
          apply in_map_iff in C1. destruct C1 as ([g' zc1] & <- & C1). exact (Hl g' zc1 C1 C2). }
        rewrite Ez, concat_app. cbn [List.concat]. rewrite !count_occ_app.
        rewrite (None l1), (None l2) by (intros; eapply Other; eauto).
        rewrite (occ_all dec z zc Hzc). lia.
    - intros z Hz Hq. assert (X : In z (List.concat zcs)).
      { apply (Permutation_in _ (Permutation_sym HP)), (Permutation_in _ (Permutation_sym Hp)), filter_In.
        split; [exact Hz|apply zinb_true, Hq]. }
      apply in_concat in X. destruct X as (zc & X1 & X2). destruct (HZ zc X1) as (g & G).
      exists g. apply HT. exists zc. auto.
    - intros Hs z g g' H H'. apply Hsep in Hs. apply HT in H, H'. destruct H as (zc & X & Z1), H' as (zc' & X' & Z1').
      destruct (HN Hs _ _ z X Z1) as [N _]. destruct (HN Hs _ _ z X' Z1') as [N' _].
      pose proof (proj1 (HC _ _ X)) as G. pose proof (proj1 (HC _ _ X')) as G'.
      destruct (in_split _ _ G) as (l1 & l2 & E). rewrite E in HS, G'. apply FOP_split in HS. destruct HS as [S1 S2].
      apply in_app_or in G'. destruct G' as [G'|[G'|G']].
      + destruct (S1 g' G'). exact (near_pw P _ _ z N' N).
      + exact G'.
      + destruct (S2 g' G'). exact (near_pw P _ _ z N N').
  Qed.
End Grouped.
