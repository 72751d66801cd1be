(** Searches of all three algorithms, relative to what their solver step does. *)
From Coq Require Import Permutation Reals Qreals Qminmax.
From Verif Require Import PyBase Rounding_Model Rounding_Proofs Container_Model Container_Spec
  Container_Proofs Finder_Model Finder_Spec Finder_Proofs Poly_Model Refine_Model Refine_Spec
  Refine_Proofs Refine_Proofs2 Zeros_Spec Zeros_Proofs Refine_Proofs3 EndToEnd_Model EndToEnd_Spec
  EndToEnd_Proofs Assist_Spec.
Open Scope Z_scope.

(** Reports [rs], each with the zero it stands for: complete and genuine on [W]. *)
Record spotted (t : R) (zeros : list point) (P : Z * Z) (W : rect) (sep once : Prop)
    (rs : list root) (ts : list (point * root)) : Prop := mkSpotted {
  sp_roots : forall r, In r rs <-> exists z, In (z, r) ts;
  sp_good : forall z c k, In (z, (c, k)) ts -> In z zeros /\ zin W z /\ 1 <= k /\ within t P c z /\
    (sep -> forall dec : (forall a b : point, {a = b} + {a <> b}), k = Z.of_nat (count_occ dec zeros z));
  sp_all : forall z, In z zeros -> zin W z -> exists r, In (z, r) ts;
  sp_once : once -> forall z r r', In (z, r) ts -> In (z, r') ts -> r = r'
}.

Lemma near_within P c z : near P c z -> within (1 / 2) P c z.
Proof. intros [A B]. split; Lra.lra. Qed.

Lemma spotted_none t zeros P W sep once : (forall z, In z zeros -> ~ zin W z) -> spotted t zeros P W sep once [] [].
Proof.
  intro H. split.
  - intro r. split; [intros []|intros (z & [])].
  - intros z c k [].
  - intros z Hz Hw. destruct (H z Hz Hw).
  - intros _ z r r' [].
Qed.

Lemma spotted_union t zeros P W A B sep once ra rb ta tb :
  (forall z, zin W z <-> zin A z \/ zin B z) -> (forall z, In z zeros -> zin A z -> ~ zin B z) ->
  spotted t zeros P A sep once ra ta -> spotted t zeros P B sep once rb tb ->
  spotted t zeros P W sep once (ra ++ rb) (ta ++ tb).
Proof.
  intros HW HD [A1 A2 A3 A4] [B1 B2 B3 B4]. split.
  - intro r. rewrite in_app_iff, A1, B1. split.
    + intros [(z & H)|(z & H)]; exists z; apply in_or_app; auto.
    + intros (z & H). apply in_app_or in H. destruct H as [H|H]; [left|right]; exists z; exact H.
  - intros z c k H. apply in_app_or in H. rewrite HW. destruct H as [H|H].
    + destruct (A2 z c k H) as (X1 & X2 & X3). auto.
    + destruct (B2 z c k H) as (X1 & X2 & X3). auto.
  - intros z Hz Hw. apply HW in Hw. destruct Hw as [Hw|Hw].
    + destruct (A3 z Hz Hw) as (r & Hr). exists r. apply in_or_app. auto.
    + destruct (B3 z Hz Hw) as (r & Hr). exists r. apply in_or_app. auto.
  - intros HO z [c k] [c' k'] H H'. apply in_app_or in H, H'. destruct H as [H|H], H' as [H'|H'].
    + exact (A4 HO z _ _ H H').
    + exfalso. destruct (A2 _ _ _ H) as (X1 & X2 & _). destruct (B2 _ _ _ H') as (Y1 & Y2 & _). exact (HD z X1 X2 Y2).
    + exfalso. destruct (A2 _ _ _ H') as (X1 & X2 & _). destruct (B2 _ _ _ H) as (Y1 & Y2 & _). exact (HD z X1 X2 Y2).
    + exact (B4 HO z _ _ H H').
Qed.

(** One report standing for all zeros of a small cell. *)
Lemma spotted_cell t zeros P q once : (1 / 2 <= t)%R -> proper q -> sub_tolerance P q -> (1 <= count zeros q)%nat ->
  exists ts, spotted t zeros P q (separated 1 P zeros) once [(center q, Z.of_nat (count zeros q))] ts.
Proof.
  intros Ht Hp Hs Hc. exists (map (fun z => (z, (center q, Z.of_nat (count zeros q)))) (filter (zinb q) zeros)).
  assert (M : forall z r, In (z, r) (map (fun z => (z, (center q, Z.of_nat (count zeros q)))) (filter (zinb q) zeros)) <->
    In z zeros /\ zin q z /\ r = (center q, Z.of_nat (count zeros q))).
  { intros z r. rewrite in_map_iff. split.
    - intros (w & X & H). injection X as -> <-. apply filter_In in H. rewrite zinb_true in H. tauto.
    - intros (H1 & H2 & ->). exists z. split; [reflexivity|]. apply filter_In. rewrite zinb_true. auto. }
  split.
  - intro r. split.
    + intros [<-|[]]. destruct (count_pos zeros q Hc) as (z & Hz & Hq). exists z. apply M. auto.
    + intros (z & H). apply M in H. destruct H as (_ & _ & ->). left. reflexivity.
  - intros z c k H. apply M in H. destruct H as (H1 & H2 & H3). injection H3 as -> ->.
    split; [exact H1|]. split; [exact H2|]. split; [lia|]. split.
    + pose proof (near_within _ _ _ (near_cell P q z Hp Hs H2)) as [N1 N2].
      pose proof (Q2R_pow10_pos (- fst P)). pose proof (Q2R_pow10_pos (- snd P)).
      split; (eapply Rle_trans; [eassumption|]; apply Rmult_le_compat_r; Lra.lra).
    + intros Hsep dec. f_equal. apply count_one_cluster; [|exact H1|exact H2].
      exact (cell_cluster 1 P zeros q (Rle_refl 1) Hsep Hs).
  - intros z Hz Hq. exists (center q, Z.of_nat (count zeros q)). apply M. auto.
  - intros _ z r r' H H'. apply M in H, H'. destruct H as (_ & _ & ->), H' as (_ & _ & ->). reflexivity.
Qed.

Lemma spotted_weaker t zeros P W (sep sep' once once' : Prop) rs ts : (sep' -> sep) -> (once' -> once) ->
  spotted t zeros P W sep once rs ts -> spotted t zeros P W sep' once' rs ts.
Proof.
  intros H1 H2 [A B C D]. split; [exact A| |exact C|intro X; exact (D (H2 X))].
  intros z c k H. destruct (B z c k H) as (X1 & X2 & X3 & X4 & X5). repeat (split; [assumption|]). intro X. exact (X5 (H1 X)).
Qed.

(** ** Runs *)
Section Spot.
  Context {S : Type} (E : env S) (v : variant) (zeros : list point) (R0 : rect) (t : R) (sep once : Prop).
  Let P := e_precision E.
  Hypothesis Hsep : sep -> separated 1 P zeros.
  Hypothesis Ht : (1 / 2 <= t)%R.
  Hypothesis HR : reliable E zeros P R0.
  Hypothesis Hdf : v = PolyV -> e_has_df E = true.
  (** What the solver step does. *)
  Hypothesis Hsolve : forall q phi l o, cell_of P R0 q -> proper q -> ~ sub_tolerance P q -> solver_zone v q phi ->
    (Qabs (phi - inject_Z (Z.of_nat (count zeros q))) <= 1 # 5)%Q ->
    (v = NewtonV /\ newton_result E q phi l o) \/ (v = PolyV /\ poly_result E q phi l o) ->
    o = Done tt /\ exists ts, spotted t zeros P q sep once (roots_of l) ts.

  Lemma est_spot q l m : cell_of P R0 q -> est E 0 q l m ->
    avoids zeros q /\ roots_of l = [] /\ exists m', m = Ok m' /\
      (Qabs (re m' - inject_Z (Z.of_nat (count zeros q))) <= 1 # 5)%Q.
  Proof.
    intros Hq (s & s' & zs & He & ->). destruct (HR q s Hq) as (Ha & s3 & zs' & m' & He' & Hm & Hb).
    rewrite He in He'. injection He' as -> -> ->. split; [exact Ha|]. split; [|exists m'; auto].
    rewrite roots_app. destruct zs' as [|z zs']; [reflexivity|]. exfalso.
    destruct (Hb z (or_introl eq_refl)) as (B1 & B2 & B3). exact (B3 (Ha _ B1 B2)).
  Qed.

  Lemma runs_spot n r phi l o : runs E v n r phi l o -> cell_of P R0 r -> proper r ->
    (Qabs (phi - inject_Z (Z.of_nat (count zeros r))) <= 1 # 5)%Q -> o <> OutOfFuel ->
    o = Done tt /\ exists ts, spotted t zeros P r sep once (roots_of l) ts.
  Proof.
    induction 1 as [r phi|n r phi Hv Hnd|n r phi Hd Hp|n r phi Hd Hp Hs|n r phi l o Hv Hns Hz HN|n r phi l o Hv Hd Hns Hz HN
      |n r phi A B l e Hd Hp Hz Hsp He
      |n r phi A B l1 m l2 o Hd Hp Hz Hsp He1 Hr1 IH1 Ho
      |n r phi A B l1 m l2 l3 e Hd Hp Hz Hsp He1 Hr1 IH1 He2
      |n r phi A B l1 m l2 l3 m2 l4 o Hd Hp Hz Hsp He1 Hr1 IH1 He2 Hr2 IH2];
      intros Hc Hpr Hphi Hf.
    - congruence.
    - rewrite Hdf in Hnd by exact Hv. discriminate.
    - split; [reflexivity|]. exists [].
      change (EvDiscard r phi :: adv E (area r)) with ([EvDiscard r phi] ++ adv E (area r)). rewrite roots_app.
      destruct (adv_logs E (area r)) as (_ & _ & _ & _ & ->).
      apply spotted_none. intros z Hz. apply (count_zero zeros); [|exact Hz].
      exact (good_empty _ _ (good_if_close _ _ Hphi) Hp).
    - split; [reflexivity|].
      change (EvReport r phi :: ?x :: ?l) with ([EvReport r phi; x] ++ l). rewrite roots_app.
      destruct (adv_logs E (deltaRe r * (0 - 0))) as (_ & _ & _ & _ & ->).
      destruct (good_nonneg_turn _ _ (good_if_close _ _ Hphi) Hp) as [Hc1 Hrd]. rewrite Hrd.
      destruct (spotted_cell t zeros P r once Ht Hpr Hs Hc1) as [ts Hts]. exists ts.
      exact (spotted_weaker _ _ _ _ _ sep _ once _ _ Hsep (fun x => x) Hts).
    - apply (Hsolve r phi l o); auto.
    - apply (Hsolve r phi l o); auto.
    - exfalso. destruct (splits_cells E R0 r A B Hsp Hc) as [HA _].
      destruct (est_spot A l _ HA He) as (_ & _ & m' & C & _). discriminate.
    - exfalso. destruct (splits_cells E R0 r A B Hsp Hc) as [HA _].
      destruct (splits_geometry E _ _ _ Hsp Hpr) as (PA & PB & _).
      destruct (est_spot A l1 _ HA He1) as (_ & _ & m' & C & Hm). injection C as <-.
      destruct (IH1 HA PA Hm Hf) as [-> _]. contradiction.
    - exfalso. destruct (splits_cells E R0 r A B Hsp Hc) as [_ HB].
      destruct (est_spot B l3 _ HB He2) as (_ & _ & m' & C & _). discriminate.
    - destruct (splits_cells E R0 r A B Hsp Hc) as [HA HB].
      destruct (splits_geometry E _ _ _ Hsp Hpr) as (PA & PB & _).
      destruct (est_spot A l1 _ HA He1) as (VA & R1 & m' & C & Hm). injection C as <-.
      destruct (est_spot B l3 _ HB He2) as (VB & R3 & m' & C & Hm2). injection C as <-.
      destruct (IH1 HA PA Hm ltac:(discriminate)) as [_ [ta Ta]].
      destruct (IH2 HB PB Hm2 Hf) as [-> [tb Tb]]. split; [reflexivity|]. exists (ta ++ tb).
      rewrite !roots_app, R1, R3. cbn [app].
      apply (spotted_union t zeros P r A B); [| |exact Ta|exact Tb].
      + intro z. exact (proj1 (splits_zin E r A B z Hsp Hpr)).
      + intros z Hz0 Hz1. exact (proj2 (splits_zin E r A B z Hsp Hpr) (VA z Hz0 Hz1)).
  Qed.

  Lemma calcRoots_spot n s s' l o : proper R0 -> calcRoots E v n R0 s = (s', l, o) -> o <> OutOfFuel ->
    o = Done tt /\ exists ts, spotted t zeros P R0 sep once (roots_of l) ts.
  Proof.
    intros Hpr H Hf. apply calcRoots_runs in H.
    destruct H as [(e & H & ->)|(m & l1 & l2 & H1 & H2 & ->)].
    - exfalso. destruct (est_spot R0 l _ (cell_whole P R0) H) as (_ & _ & m' & C & _). discriminate.
    - destruct (est_spot R0 l1 _ (cell_whole P R0) H1) as (_ & R1 & m' & C & Hm). injection C as <-.
      rewrite roots_app, R1. exact (runs_spot _ _ _ _ _ H2 (cell_whole P R0) Hpr Hm Hf).
  Qed.
End Spot.

(** ** The Newton step *)
Lemma newton_step {S} (E : env S) zeros R0 q phi l o :
  secant_converges (e_secant E) zeros (e_precision E) R0 ->
  (e_has_df E = true -> newton_converges (e_newton E) zeros (e_precision E) R0) ->
  cell_of (e_precision E) R0 q -> solver_zone NewtonV q phi ->
  (Qabs (phi - inject_Z (Z.of_nat (count zeros q))) <= 1 # 5)%Q -> newton_result E q phi l o ->
  o = Done tt /\ exists ts, spotted (1 / 2) zeros (e_precision E) q (separated 1 (e_precision E) zeros)
    (e_has_df E = false) (roots_of l) ts.
Proof.
  intros HC HC2 Hq (Z1 & Z2 & Z3 & Z4) Hphi (rs & x & -> & -> & HN). cbv zeta in HN.
  assert (C1 : count zeros q = 1%nat).
  { unfold TWO_PI, FOUR_PI in Z1, Z2. apply Qabs_Qle_condition in Hphi. destruct Hphi as [A B].
    destruct (count zeros q) as [|[|k]]; [exfalso|reflexivity|exfalso].
    - change (inject_Z (Z.of_nat 0)) with 0%Q in *. Lqa.lra.
    - assert (H : (2 <= inject_Z (Z.of_nat (Datatypes.S (Datatypes.S k))))%Q).
      { change 2%Q with (inject_Z 2). rewrite <- Zle_Qle. lia. }
      Lqa.lra. }
  assert (X : exists z, In z zeros /\ zin q z /\ forall y, In y zeros -> zin q y -> y = z).
  { unfold count in C1. destruct (filter (zinb q) zeros) as [|z [|z' f]] eqn:F; try discriminate.
    exists z. assert (I : In z (filter (zinb q) zeros)) by (rewrite F; left; reflexivity).
    apply filter_In in I. rewrite zinb_true in I. split; [tauto|]. split; [tauto|].
    intros y Hy1 Hy2. assert (Iy : In y (filter (zinb q) zeros)) by (apply filter_In; rewrite zinb_true; auto).
    rewrite F in Iy. destruct Iy as [<-|[]]. reflexivity. }
  destruct X as (z & Hz & Hin & Huniq).
  destruct (HC q z Hq Z3 Z4 C1 Hz Hin) as (w & Hw & Nw). rewrite Hw in HN.
  assert (Or : forall dec : (forall a b : point, {a = b} + {a <> b}), 1 = Z.of_nat (count_occ dec zeros z)).
  { intro dec. rewrite <- (count_one_cluster zeros q z) with (dec := dec); [rewrite C1; reflexivity| |exact Hz|exact Hin].
    intros z1 z2 H1 H2 H3 H4. rewrite (Huniq z1 H1 H3), (Huniq z2 H2 H4). reflexivity. }
  assert (Hl : roots_of (EvNewton q phi :: map EvRoot rs ++ adv E (area q)) = rs).
  { change (EvNewton q phi :: ?a ++ ?b) with ([EvNewton q phi] ++ a ++ b). rewrite !roots_app, roots_of_map.
    destruct (adv_logs E (area q)) as (_ & _ & _ & _ & ->). cbn. apply app_nil_r. }
  rewrite Hl.
  assert (SP : forall once : Prop, (forall c k, In (c, k) rs -> k = 1 /\ near (e_precision E) c z) -> rs <> [] ->
    (once -> forall r r', In r rs -> In r' rs -> r = r') ->
    exists ts, spotted (1 / 2) zeros (e_precision E) q (separated 1 (e_precision E) zeros) once rs ts).
  { intros once H1 H2 H3. exists (map (fun r => (z, r)) rs).
    assert (M : forall y r, In (y, r) (map (fun r => (z, r)) rs) <-> y = z /\ In r rs).
    { intros y r. rewrite in_map_iff. split; [intros (r' & X & H); injection X as -> ->; auto|intros [-> H]; exists r; auto]. }
    split.
    - intro r. split; [intro H; exists z; apply M; auto|intros (y & H); apply M in H; tauto].
    - intros y c k H. apply M in H. destruct H as [-> H]. destruct (H1 c k H) as [-> N].
      split; [exact Hz|]. split; [exact Hin|]. split; [lia|]. split; [exact (near_within _ _ _ N)|]. intros _. exact Or.
    - intros y Hy1 Hy2. rewrite (Huniq y Hy1 Hy2). destruct rs as [|r rs']; [congruence|]. exists r. left. reflexivity.
    - intros HO y r r' H H'. apply M in H, H'. apply (H3 HO); tauto. }
  destruct (e_has_df E) eqn:DF.
  - destruct (HC2 eq_refl q z Hq Z3 Z4 C1 Hz Hin) as [(ex & HN2 & HR)|(u & HN2 & Nu)]; rewrite HN2 in HN; destruct HN as [-> ->].
    + split; [pose proof (caught ex) as CC; destruct (catches_RuntimeError ex); [reflexivity|contradiction]|]. apply SP; [intros c k [X|[]]; injection X as <- <-; auto|discriminate|discriminate].
    + split; [reflexivity|]. apply SP; [intros c k [X|[X|[]]]; injection X as <- <-; auto|discriminate|discriminate].
  - destruct HN as [-> ->]. split; [reflexivity|].
    apply SP; [intros c k [X|[]]; injection X as <- <-; auto|discriminate|].
    intros _ r r' [<-|[]] [<-|[]]. reflexivity.
Qed.
