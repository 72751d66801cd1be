(** Whole searches in binary64: one run of the algorithm with a reliable estimator. *)
From Coq Require Import Permutation Reals Qreals Qminmax.
From Verif Require Import PyBase Rounding_Model Rounding_Proofs Container_Model Container_Spec
  Container_Proofs Finder_Model Finder_Spec Finder_Proofs Poly_Model Refine_Model Refine_Spec
  Refine_Proofs Refine_Proofs2 Zeros_Spec Zeros_Proofs Refine_Proofs3 EndToEnd_Model EndToEnd_Spec
  EndToEnd_Proofs EndToEnd_Proofs2 Float_Model Float_Spec Float_Proofs Float_Proofs2 Float_Proofs3 Float_Proofs4
  FloatGrid_Model FloatGrid_Spec FloatGrid_Proofs FloatCont_Model FloatCont_Spec FloatCont_Proofs
  FloatEnd_Model FloatEnd_Spec FloatEnd_Proofs.
Open Scope Z_scope.

Section Reliable.
  Context {S : Type} (E : env S) (zeros : list point) (R : rect) (tx ty : Q).
  Notation cell q := (cell64 tx ty R q).

  Definition fcell_event (ev : event) : Prop :=
    match ev with
    | EvMoment k q m => k = 0 /\ cell q /\ exists s s' zs, e_est E 0 q s = (s', zs, m)
    | EvRoot (z, k) => 1 <= k \/ (k = 0 /\ exists q s, cell q /\ In z (snd (fst (e_est E 0 q s))))
    | EvReport q _ => cell q
    | _ => True
    end.

  Lemma fest_cells q l m : cell q -> est E 0 q l m -> forall ev, In ev l -> fcell_event ev.
  Proof.
    intros Hq (s & s' & zs & He & ->) ev Hin. apply in_app_or in Hin. destruct Hin as [Hin|[<-|[]]].
    - apply in_map_iff in Hin. destruct Hin as (z & <- & Hz). cbn. right. split; [reflexivity|].
      exists q, s. rewrite He. auto.
    - cbn. split; [reflexivity|]. split; [exact Hq|]. exists s, s', zs. exact He.
  Qed.
  Lemma fadv_cells a ev : In ev (adv E a) -> fcell_event ev.
  Proof. intro H. apply in_adv in H. destruct H as [_ ->]. exact I. Qed.
  Lemma fsplits_cells r A B : fsplits rnd64 tx ty r A B -> cell r -> cell A /\ cell B.
  Proof.
    intros [Hs [(_ & -> & ->)|(_ & -> & ->)]] Hr; split; constructor; assumption.
  Qed.

  Lemma fruns_cells n r phi l o : fruns rnd64 tx ty E Simple n r phi l o -> cell r ->
    forall ev, In ev l -> fcell_event ev.
  Proof.
    remember Simple as v eqn:Ev. intro H. revert Ev.
    induction H as [r phi|n r phi Hv|n r phi Hp|n r phi Hp Hs|n r phi l o Hv Hp HS
      |n r phi A B l e Hp HAB H1
      |n r phi A B l1 m l2 o Hp HAB H1 H2 IH2 Ho
      |n r phi A B l1 m l2 l3 e Hp HAB H1 H2 IH2 H3
      |n r phi A B l1 m l2 l3 m2 l4 o Hp HAB H1 H2 IH2 H3 H4 IH4];
      intros Ev Hc ev Hin; try congruence.
    - destruct Hin.
    - destruct Hin as [<-|Hin]; [exact I|]. exact (fadv_cells _ _ Hin).
    - destruct Hin as [<-|[<-|Hin]]; [exact Hc| |exact (fadv_cells _ _ Hin)].
      left. apply round_ge_1, Hp.
    - destruct (fsplits_cells _ _ _ HAB Hc) as [HA HB]. exact (fest_cells _ _ _ HA H1 _ Hin).
    - destruct (fsplits_cells _ _ _ HAB Hc) as [HA HB]. apply in_app_or in Hin.
      destruct Hin as [Hin|Hin]; [exact (fest_cells _ _ _ HA H1 _ Hin)|exact (IH2 Ev HA _ Hin)].
    - destruct (fsplits_cells _ _ _ HAB Hc) as [HA HB].
      apply in_app_or in Hin. destruct Hin as [Hin|Hin]; [exact (fest_cells _ _ _ HA H1 _ Hin)|].
      apply in_app_or in Hin. destruct Hin as [Hin|Hin]; [exact (IH2 Ev HA _ Hin)|].
      exact (fest_cells _ _ _ HB H3 _ Hin).
    - destruct (fsplits_cells _ _ _ HAB Hc) as [HA HB].
      apply in_app_or in Hin. destruct Hin as [Hin|Hin]; [exact (fest_cells _ _ _ HA H1 _ Hin)|].
      apply in_app_or in Hin. destruct Hin as [Hin|Hin]; [exact (IH2 Ev HA _ Hin)|].
      apply in_app_or in Hin. destruct Hin as [Hin|Hin]; [exact (fest_cells _ _ _ HB H3 _ Hin)|].
      exact (IH4 Ev HB _ Hin).
  Qed.

  Lemma fcalcRoots_cells n s s' l o : fcalcRoots rnd64 tx ty E Simple n R s = (s', l, o) ->
    forall ev, In ev l -> fcell_event ev.
  Proof.
    intros H ev Hin. apply fcalcRoots_runs in H.
    destruct H as [(e & H & ->)|(m & l1 & l2 & H1 & H2 & ->)].
    - exact (fest_cells _ _ _ (cell64_whole tx ty R) H _ Hin).
    - apply in_app_or in Hin. destruct Hin as [Hin|Hin].
      + exact (fest_cells _ _ _ (cell64_whole tx ty R) H1 _ Hin).
      + exact (fruns_cells _ _ _ _ _ H2 (cell64_whole tx ty R) _ Hin).
  Qed.

  Hypothesis HR : reliable64 E zeros tx ty R.

  Lemma freliable_good n s s' l o : fcalcRoots rnd64 tx ty E Simple n R s = (s', l, o) -> good_run zeros l.
  Proof.
    intros H q m Hin. pose proof (fcalcRoots_cells _ _ _ _ _ H _ Hin) as (_ & Hq & s1 & s2 & zs & He).
    destruct (HR q s1 Hq) as (Ha & s3 & zs' & m' & He' & Hm & _).
    split; [exact Ha|]. exists m'. rewrite He in He'. injection He' as -> -> ->.
    split; [reflexivity|]. apply good_if_close, Hm.
  Qed.

  Lemma freliable_located n s s' l o : fcalcRoots rnd64 tx ty E Simple n R s = (s', l, o) ->
    forall z k, In (z, k) (roots_of l) -> 1 <= k /\ In (z, k) (located l).
  Proof.
    intros H z k Hin. pose proof Hin as Hin2. apply in_roots_of in Hin2.
    pose proof (fcalcRoots_cells _ _ _ _ _ H _ Hin2) as [Hk|(-> & q & s1 & Hq & Hz)].
    - split; [exact Hk|]. apply filter_In. split; [exact Hin|]. cbn.
      apply negb_true_iff, Z.eqb_neq. lia.
    - exfalso. destruct (HR q s1 Hq) as (Ha & s3 & zs' & m' & He' & _ & Hb).
      rewrite He' in Hz. cbn [fst snd] in Hz. destruct (Hb z Hz) as (B1 & B2 & B3).
      apply B3. apply Ha; assumption.
  Qed.
End Reliable.

Record ffound (zeros : list point) (tx ty : Q) (W : rect) (rs : list root) (qs : list rect) : Prop := mkFfound {
  ff_roots : forall r, In r rs <-> exists q, In q qs /\ r = (fcenter rnd64 q, Z.of_nat (count zeros q));
  ff_disjoint : ForallOrdPairs interiors_disjoint qs;
  ff_cells : forall q, In q qs -> sub_rect q W /\ proper q /\ float_rect rnd64 q /\
    sides_below tx ty q /\ (1 <= count zeros q)%nat /\ avoids zeros q;
  ff_zeros : forall z, In z zeros -> zin W z -> exists q, In q qs /\ zin q z
}.

Definition fcells {S} (E : env S) (tx ty : Q) (depth : nat) (s : S) (x : rctx) : list rect :=
  reported (snd (fst (fcalcRoots rnd64 tx ty (env_for E x) Simple depth (rect_of x) s))).

Definition double_rect (r : rect) : Prop :=
  is_double (x1 r) /\ is_double (x2 r) /\ is_double (y1 r) /\ is_double (y2 r).
Definition rect_below (k : Z) (r : rect) : Prop :=
  (- 2 ^ k <= x1 r /\ x2 r <= 2 ^ k /\ - 2 ^ k <= y1 r /\ y2 r <= 2 ^ k)%Q.

Lemma falgorithm_core {S} (E : env S) zeros tx ty k depth info s x a b :
  -1022 <= k -> is_double tx -> is_double ty ->
  (2 ^ (k - 49) <= tx)%Q -> (2 ^ (k - 49) <= ty)%Q ->
  proper (rect_of x) -> double_rect (rect_of x) -> rect_below k (rect_of x) ->
  (x2 (rect_of x) - x1 (rect_of x) < inject_Z (2 ^ Z.of_nat a) * tx)%Q ->
  (y2 (rect_of x) - y1 (rect_of x) < inject_Z (2 ^ Z.of_nat b) * ty)%Q ->
  (a + b + 2 < depth)%nat ->
  reliable64 E zeros tx ty (rect_of x) ->
  let run := fargument_algorithm rnd64 tx ty E Simple depth info s x in
  ar_end run = None /\ ffound zeros tx ty (rect_of x) (map snd (ar_reports run)) (fcells E tx ty depth s x).
Proof.
  intros Hk F1 F2 T1 T2 Hp (R1 & R2 & R3 & R4) (B1 & B2 & B3 & B4) Ha Hb Hd Hr run.
  unfold fargument_algorithm in run. unfold fcells.
  destruct (fcalcRoots rnd64 tx ty (env_for E x) Simple depth (rect_of x) s) as [[s' l] o] eqn:H.
  cbv beta iota in run.
  change (reliable64 (env_for E x) zeros tx ty (rect_of x)) in Hr.
  pose proof (freliable_good _ _ _ _ _ Hr _ _ _ _ _ H) as Hg.
  pose proof (freliable_located _ _ _ _ _ Hr _ _ _ _ _ H) as Hl.
  assert (Ho : o <> OutOfFuel).
  { destruct (depth64 (env_for E x) tx ty k Simple (rect_of x) s depth a b s' l o) as [HD _]; try assumption.
    exact (HD Hd). }
  apply is_double_iff in F1, F2.
  assert (Hf : float_rect rnd64 (rect_of x)).
  { apply is_double_iff in R1, R2, R3, R4. repeat split; assumption. }
  destruct (fl_correct rnd64 tx ty (env_for E x) rounding64 F1 F2 zeros depth (rect_of x) s s' l o Hp Hf H Ho Hg)
    as (Eo & _ & _ & D & Z & _).
  pose proof H as H'. apply fcalcRoots_runs in H'.
  destruct H' as [(e & H1 & C)|(m & l1 & l2 & H1 & H2 & El)]; [rewrite C in Eo; discriminate Eo|].
  rewrite El in Hg. pose proof (good_app zeros _ _ Hg) as [G1 G2].
  destruct (good_est _ zeros _ _ _ H1 G1) as (_ & m' & Hm & GA). injection Hm as <-.
  destruct (fruns_correct rnd64 tx ty (env_for E x) rounding64 F1 F2 zeros _ _ _ _ _ H2 Hp Hf GA G2 Ho)
    as (_ & L & Q & _ & _).
  assert (EL : located l = located l2).
  { rewrite El, located_app, (est_located _ _ _ _ _ H1). reflexivity. }
  assert (ER : reported l = reported l2).
  { pose proof (est_logs _ _ _ _ _ H1) as (_ & K & _). rewrite El, reported_app, K. reflexivity. }
  rewrite <- EL, <- ER in L. rewrite <- ER in Q.
  subst run. rewrite Eo. cbn [ar_end ar_reports]. split; [reflexivity|].
  rewrite map_map. cbn [snd]. rewrite map_id. cbn [fst snd]. split.
  - intro r. destruct r as [c j]. split.
    + intro Hin. destruct (Hl _ _ Hin) as [_ Hin2]. rewrite L in Hin2. apply in_map_iff in Hin2.
      destruct Hin2 as (q & Hq & Hin2). exists q. split; [exact Hin2|symmetry; exact Hq].
    + intros (q & Hq & Hc). assert (Hin : In (c, j) (located l)).
      { rewrite L. apply in_map_iff. exists q. split; [symmetry; exact Hc|exact Hq]. }
      apply filter_In in Hin. tauto.
  - exact D.
  - intros q Hq. destruct (Q q Hq) as (Q1 & Q2 & Q3 & Q4 & Q5).
    destruct (in_reported _ _ Hq) as (phi & Hphi).
    pose proof (fcalcRoots_cells _ _ _ _ _ _ _ _ _ H _ Hphi) as Hc. cbn in Hc.
    repeat (split; [assumption|]). exact (proj1 (Hr q s Hc)).
  - exact Z.
Qed.
