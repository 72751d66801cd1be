(** Proofs about whole searches. *)
From Coq Require Import Permutation Reals Qreals Qminmax.
From Verif Require Import PyBase Rounding_Model Rounding_Proofs Container_Model Container_Spec
  Container_Proofs Finder_Model Finder_Spec Finder_Proofs Poly_Model Refine_Model Refine_Spec
  Refine_Proofs Refine_Proofs2 Zeros_Spec Zeros_Proofs Refine_Proofs3 EndToEnd_Model EndToEnd_Spec.
Open Scope Z_scope.

(** ** A reliable estimator makes good runs *)
Section Reliable.
  Context {S : Type} (E : env S) (zeros : list point) (R : rect).
  Let P := e_precision E.

  Definition cell_event (ev : event) : Prop :=
    match ev with
    | EvMoment k q m => k = 0 /\ cell_of P R q /\ exists s s' zs, e_est E 0 q s = (s', zs, m)
    | EvRoot (z, k) => 1 <= k \/ (k = 0 /\ exists q s, cell_of P R q /\ In z (snd (fst (e_est E 0 q s))))
    | EvReport q _ => cell_of P R q
    | _ => True
    end.

  Lemma est_cells q l m : cell_of P R q -> est E 0 q l m -> forall ev, In ev l -> cell_event ev.
  Proof.
    intros Hq (s & s' & zs & He & ->) ev Hin. apply in_app_or in Hin. destruct Hin as [Hin|[<-|[]]].
    - apply in_map_iff in Hin. destruct Hin as (z & <- & Hz). cbn. right. split; [reflexivity|].
      exists q, s. rewrite He. auto.
    - cbn. split; [reflexivity|]. split; [exact Hq|]. exists s, s', zs. exact He.
  Qed.

  Lemma adv_cells a ev : In ev (adv E a) -> cell_event ev.
  Proof. intro H. apply in_adv in H. destruct H as [_ ->]. exact I. Qed.

  Lemma splits_cells r A B : splits E r A B -> cell_of P R r -> cell_of P R A /\ cell_of P R B.
  Proof.
    intros [Hs [(Hw & -> & ->)|(Hw & -> & ->)]] Hr; split; constructor; try assumption; intro C;
      exact (Qlt_not_le _ _ C Hw).
  Qed.

  Lemma round_ge_1 phi : (TWO_PI <= phi)%Q -> 1 <= round_half_even phi.
  Proof.
    intro H. unfold TWO_PI in H. pose proof (round_error _ phi eq_refl) as Hr.
    apply Qabs_Qle_condition in Hr. destruct (Z_lt_le_dec (round_half_even phi) 1) as [C|C]; [|exact C].
    exfalso. assert (Hq : (inject_Z (round_half_even phi) <= 0)%Q).
    { change 0%Q with (inject_Z 0). rewrite <- Zle_Qle. lia. }
    lra.
  Qed.

  Lemma runs_cells n r phi l o : runs E Simple n r phi l o -> cell_of P R r ->
    forall ev, In ev l -> cell_event ev.
  Proof.
    induction 1 as [r phi|n r phi Hv|n r phi Hd Hp|n r phi Hd Hp Hs|n r phi l o Hv|n r phi l o Hv
      |n r phi A B l e Hd Hp Hz Hsp He
      |n r phi A B l1 m l2 o Hd Hp Hz Hsp He1 Hr1 IH1 Ho
      |n r phi A B l1 m l2 l3 e Hd Hp Hz Hsp He1 Hr1 IH1 He2
      |n r phi A B l1 m l2 l3 m2 l4 o Hd Hp Hz Hsp He1 Hr1 IH1 He2 Hr2 IH2];
      intros Hc ev Hin; try discriminate.
    - destruct Hin.
    - destruct Hin as [<-|Hin]; [exact I|]. apply adv_cells in Hin. exact Hin.
    - destruct Hin as [<-|[<-|Hin]]; [exact Hc| |apply adv_cells in Hin; exact Hin].
      left. apply round_ge_1, Hp.
    - destruct (splits_cells _ _ _ Hsp Hc) as [HA HB]. exact (est_cells _ _ _ HA He _ Hin).
    - destruct (splits_cells _ _ _ Hsp Hc) as [HA HB]. apply in_app_or in Hin.
      destruct Hin as [Hin|Hin]; [exact (est_cells _ _ _ HA He1 _ Hin)|exact (IH1 HA _ Hin)].
    - destruct (splits_cells _ _ _ Hsp Hc) as [HA HB].
      apply in_app_or in Hin. destruct Hin as [Hin|Hin]; [exact (est_cells _ _ _ HA He1 _ Hin)|].
      apply in_app_or in Hin. destruct Hin as [Hin|Hin]; [exact (IH1 HA _ Hin)|].
      exact (est_cells _ _ _ HB He2 _ Hin).
    - destruct (splits_cells _ _ _ Hsp Hc) as [HA HB].
      apply in_app_or in Hin. destruct Hin as [Hin|Hin]; [exact (est_cells _ _ _ HA He1 _ Hin)|].
      apply in_app_or in Hin. destruct Hin as [Hin|Hin]; [exact (IH1 HA _ Hin)|].
      apply in_app_or in Hin. destruct Hin as [Hin|Hin]; [exact (est_cells _ _ _ HB He2 _ Hin)|].
      exact (IH2 HB _ Hin).
  Qed.

  Lemma calcRoots_cells n s s' l o : calcRoots E Simple n R s = (s', l, o) ->
    forall ev, In ev l -> cell_event ev.
  Proof.
    intros H ev Hin. apply calcRoots_runs in H.
    destruct H as [(e & H & ->)|(m & l1 & l2 & H1 & H2 & ->)].
    - exact (est_cells _ _ _ (cell_whole P R) H _ Hin).
    - apply in_app_or in Hin. destruct Hin as [Hin|Hin].
      + exact (est_cells _ _ _ (cell_whole P R) H1 _ Hin).
      + exact (runs_cells _ _ _ _ _ H2 (cell_whole P R) _ Hin).
  Qed.

  Hypothesis HR : reliable E zeros P R.

  Lemma reliable_good n s s' l o : calcRoots E Simple n R s = (s', l, o) -> good_run zeros l.
  Proof.
    intros H q m Hin. pose proof (calcRoots_cells _ _ _ _ _ H _ Hin) as (_ & Hq & s1 & s2 & zs & He).
    destruct (HR q s1 Hq) as (Ha & s3 & zs' & m' & He' & Hm & _).
    split; [exact Ha|]. exists m'. rewrite He in He'. injection He' as -> -> ->.
    split; [reflexivity|]. apply good_if_close, Hm.
  Qed.

  Lemma reliable_located n s s' l o : calcRoots E Simple n R s = (s', l, o) ->
    forall z k, In (z, k) (roots_of l) -> 1 <= k /\ In (z, k) (located l).
  Proof.
    intros H z k Hin. pose proof Hin as Hin2. apply in_roots_of in Hin2.
    pose proof (calcRoots_cells _ _ _ _ _ H _ Hin2) as [Hk|(-> & q & s1 & Hq & Hz)].
    - split; [exact Hk|]. apply filter_In. split; [exact Hin|]. cbn.
      apply negb_true_iff, Z.eqb_neq. lia.
    - exfalso. destruct (HR q s1 Hq) as (Ha & s3 & zs' & m' & He' & _ & Hb).
      rewrite He' in Hz. cbn [fst snd] in Hz. destruct (Hb z Hz) as (B1 & B2 & B3).
      apply B3. apply Ha; assumption.
  Qed.
End Reliable.

(** ** Geometry of the searched rectangle *)
Lemma Q2R_Z n : Q2R (inject_Z n) = IZR n.
Proof. unfold Q2R, inject_Z. cbn [Qnum Qden]. rewrite Rinv_1, Rmult_1_r. reflexivity. Qed.
Lemma Q2R_half_1 : Q2R (1 # 2) = (/ 2)%R.
Proof. unfold Q2R. cbn [Qnum Qden]. apply Rmult_1_l. Qed.
Lemma Q2R_pow10_pos p : (0 < Q2R (pow10 p))%R.
Proof. change 0%R with (IZR 0). rewrite <- RMicromega.Q2R_0. apply Qlt_Rlt, pow10_pos. Qed.

Section Domain.
  Variables (f : holoFunc) (df : option holoFunc) (dflt : Z * Z) (reRan imRan : Q * Q) (prec : option (Z * Z)).
  Let x := serial_context f df dflt reRan imRan prec.
  Let P := search_precision dflt prec.

  Lemma rect_eq :
    (x1 (rect_of x) == Qmin (fst reRan) (snd reRan) - pow10 (- fst P) /\
     x2 (rect_of x) == Qmax (fst reRan) (snd reRan) + 2 * pow10 (- fst P) /\
     y1 (rect_of x) == Qmin (fst imRan) (snd imRan) - 3 * pow10 (- snd P) /\
     y2 (rect_of x) == Qmax (fst imRan) (snd imRan) + 4 * pow10 (- snd P))%Q.
  Proof. exact (desym_eq reRan imRan P). Qed.

  Lemma minmax a b : (Qmin a b <= Qmax a b)%Q.
  Proof. apply Qle_trans with a; [apply Q.le_min_l|apply Q.le_max_l]. Qed.

  Lemma rect_wide : (x1 (rect_of x) < x2 (rect_of x) /\ y1 (rect_of x) < y2 (rect_of x))%Q.
  Proof.
    destruct rect_eq as (A & B & C & D). rewrite A, B, C, D.
    pose proof (minmax (fst reRan) (snd reRan)). pose proof (minmax (fst imRan) (snd imRan)).
    pose proof (pow10_pos (- fst P)). pose proof (pow10_pos (- snd P)). split; lra.
  Qed.

  Lemma rect_proper : proper (rect_of x).
  Proof. destruct rect_wide. split; apply Qlt_le_weak; assumption. Qed.

  Lemma abs_minmax a b : (Qmax a b - Qmin a b == Qabs (a - b))%Q.
  Proof.
    destruct (Qlt_le_dec a b) as [L|L].
    - rewrite Q.max_r, Q.min_l by lra. rewrite Qabs_neg by lra. ring.
    - rewrite Q.max_l, Q.min_r by lra. rewrite Qabs_pos by lra. ring.
  Qed.

  Lemma rect_halvings a b :
    halvings (Qabs (fst reRan - snd reRan) + 3 * pow10 (- fst P)) (fst P) a ->
    halvings (Qabs (fst imRan - snd imRan) + 7 * pow10 (- snd P)) (snd P) b ->
    (x2 (rect_of x) - x1 (rect_of x) < inject_Z (2 ^ Z.of_nat a) * pow10 (- fst P))%Q /\
    (y2 (rect_of x) - y1 (rect_of x) < inject_Z (2 ^ Z.of_nat b) * pow10 (- snd P))%Q.
  Proof.
    unfold halvings. destruct rect_eq as (A & B & C & D). rewrite A, B, C, D.
    rewrite <- !abs_minmax. intros H1 H2. split.
    - eapply Qle_lt_trans; [|exact H1]. lra.
    - eapply Qle_lt_trans; [|exact H2]. lra.
  Qed.

  Lemma rect_requested z : requested reRan imRan z -> zin (rect_of x) z.
  Proof.
    destruct rect_eq as (A & B & C & D). apply Qeq_eqR in A, B, C, D.
    pose proof (Q2R_pow10_pos (- fst P)). pose proof (Q2R_pow10_pos (- snd P)).
    change 2%Q with (inject_Z 2) in A, B, C, D.
    change 3%Q with (inject_Z 3) in A, B, C, D.
    change 4%Q with (inject_Z 4) in A, B, C, D.
    unfold requested, zin. rewrite A, B, C, D.
    rewrite !Q2R_minus, !Q2R_plus, !Q2R_mult, !Q2R_Z. Lra.lra.
  Qed.

  Lemma rect_almost z : zin (rect_of x) z -> almost_requested P reRan imRan z.
  Proof.
    destruct rect_eq as (A & B & C & D). apply Qeq_eqR in A, B, C, D.
    change 2%Q with (inject_Z 2) in A, B, C, D.
    change 3%Q with (inject_Z 3) in A, B, C, D.
    change 4%Q with (inject_Z 4) in A, B, C, D.
    unfold almost_requested, zin. rewrite A, B, C, D.
    rewrite !Q2R_minus, !Q2R_plus, !Q2R_mult, !Q2R_Z. Lra.lra.
  Qed.
End Domain.

(** ** Feeding a fresh container *)
Lemma fresh_feed ctx l p sp iter pr : iteration_order iter ->
  snd (feed ctx l (rc_init p sp)) = Ok tt /\
  (In pr (reported_pairs iter (fst (feed ctx l (rc_init p sp)))) <->
   exists i r, In (i, r) l /\ pr = roundRoot r (fc_precision ctx)).
Proof.
  intro HI. rewrite feed_total by (intros ir _; exists true; reflexivity). cbn [fst snd].
  split; [reflexivity|]. rewrite reported_pairs_in by exact HI.
  destruct l as [|[i r] l].
  - cbn. split; [tauto|intros (i & r & [] & _)].
  - destruct (adds_some ctx ((i, r) :: l) (rc_init p sp) (rc_init_inv p sp)) as [_ Hs].
    { exists (i, r). split; [left; reflexivity|reflexivity]. }
    rewrite Hs. split.
    + intros [([j t] & H1 & _ & H2)|[_ []]]. exists j, t. auto.
    + intros (j & t & H1 & H2). left. exists (j, t). split; [exact H1|]. split; [reflexivity|exact H2].
Qed.

(** ** Rounding a nearby value *)
Lemma Qabs_R a b e : (Qabs (a - b) <= e)%Q -> (Rabs (Q2R a - Q2R b) <= Q2R e)%R.
Proof.
  intro H. apply Qabs_Qle_condition in H. destruct H as [H1 H2]. apply Qle_Rle in H1, H2.
  rewrite Q2R_opp in H1. rewrite Q2R_minus in H1, H2. apply Rabs_le. Lra.lra.
Qed.

Lemma near_round p P k c z t :
  (forall d, (2 * t - 1) * Q2R (pow10 (- d)) = Q2R (pow10 (- (d + k))))%R ->
  near (fst p + k, snd p + k) c z -> P = p ->
  forall o, within t P (fst (roundRoot (c, o) P)) z.
Proof.
  intros Ht Hn -> o. unfold near in Hn. cbn [fst snd] in Hn. destruct Hn as [N1 N2].
  rewrite <- !Ht in N1, N2.
  pose proof (round_dec_error (fst p) (re c)) as R1. pose proof (round_dec_error (snd p) (im c)) as R2.
  apply Qabs_R in R1, R2. rewrite Q2R_mult in R1, R2.
  rewrite Q2R_half_1 in R1, R2.
  unfold within, roundRoot, re, im in *. cbn [fst snd] in *.
  set (e1 := Q2R (pow10 (- fst p))) in *. set (e2 := Q2R (pow10 (- snd p))) in *.
  split.
  - replace (fst z - Q2R (round_dec (fst p) (fst c)))%R
      with ((fst z - Q2R (fst c)) + (Q2R (fst c) - Q2R (round_dec (fst p) (fst c))))%R by ring.
    eapply Rle_trans; [apply Rabs_triang|]. Lra.lra.
  - replace (snd z - Q2R (round_dec (snd p) (snd c)))%R
      with ((snd z - Q2R (snd c)) + (Q2R (snd c) - Q2R (round_dec (snd p) (snd c))))%R by ring.
    eapply Rle_trans; [apply Rabs_triang|]. Lra.lra.
Qed.

(** ** One run of the algorithm *)
Lemma in_reported q l : In q (reported l) -> exists phi, In (EvReport q phi) l.
Proof.
  unfold reported. rewrite in_flat_map. intros (ev & Hev & Hq).
  destruct ev as [? |?|? ? ?|? ?|q' p'|? ?|? ?]; cbn in Hq; try tauto. destruct Hq as [<-|[]]. eauto.
Qed.

Lemma sub_zin q r z : sub_rect q r -> zin q z -> zin r z.
Proof.
  intros (A & B & C & D) H. apply Qle_Rle in A, B, C, D. unfold zin in *. Lra.lra.
Qed.

Lemma cell_proper P r q : cell_of P r q -> proper r -> proper q.
Proof.
  intros H Hr. induction H as [|q H IH Hq Hw|q H IH Hq Hw|q H IH Hq Hw|q H IH Hq Hw]; [exact Hr|..];
    destruct IH as [I1 I2]; pose proof (half_mid _ _ I1); pose proof (half_mid _ _ I2);
    split; cbn [x1 x2 y1 y2]; Lqa.lra.
Qed.

Record found (zeros : list point) (x : rctx) (rs : list root) (qs : list rect) : Prop := mkFound {
  fd_roots : forall r, In r rs <-> exists q, In q qs /\ r = (center q, Z.of_nat (count zeros q));
  fd_disjoint : ForallOrdPairs interiors_disjoint qs;
  fd_cells : forall q, In q qs -> sub_rect q (rect_of x) /\ proper q /\
    sub_tolerance (cx_precision x) q /\ (1 <= count zeros q)%nat /\ avoids zeros q;
  fd_zeros : forall z, In z zeros -> zin (rect_of x) z -> exists q, In q qs /\ zin q z
}.

Definition reported_cells {S} (E : env S) (depth : nat) (s : S) (x : rctx) : list rect :=
  reported (snd (fst (calcRoots (env_for E x) Simple depth (rect_of x) s))).

Lemma algorithm_core {S} (E : env S) zeros depth info s x a b :
  proper (rect_of x) ->
  (x2 (rect_of x) - x1 (rect_of x) < inject_Z (2 ^ Z.of_nat a) * pow10 (- fst (cx_precision x)))%Q ->
  (y2 (rect_of x) - y1 (rect_of x) < inject_Z (2 ^ Z.of_nat b) * pow10 (- snd (cx_precision x)))%Q ->
  (a + b < depth)%nat ->
  reliable E zeros (cx_precision x) (rect_of x) ->
  let run := argument_algorithm E Simple depth info s x in
  ar_end run = None /\ found zeros x (map snd (ar_reports run)) (reported_cells E depth s x).
Proof.
  intros Hp Ha Hb Hd Hr run. unfold argument_algorithm in run. unfold reported_cells.
  destruct (calcRoots (env_for E x) Simple depth (rect_of x) s) as [[s' l] o] eqn:H.
  cbv beta iota in run.
  change (reliable (env_for E x) zeros (e_precision (env_for E x)) (rect_of x)) in Hr.
  pose proof (reliable_good _ _ _ Hr _ _ _ _ _ H) as Hg.
  pose proof (reliable_located _ _ _ Hr _ _ _ _ _ H) as Hl.
  assert (Ho : o <> OutOfFuel).
  { pose proof (C20_depth (env_for E x) Simple (rect_of x) s depth a b s' l o) as HD.
    exact (proj1 (HD Ha Hb H) Hd). }
  destruct (C23_lemma _ _ _ _ _ _ _ _ Hp H Ho Hg) as (-> & L & Q & D & _ & _ & _).
  subst run. cbn [ar_end ar_reports]. split; [reflexivity|].
  rewrite map_map. cbn [snd]. rewrite map_id.
  cbn [fst snd]. split.
  - intro r. destruct r as [c k]. split.
    + intro Hin. destruct (Hl _ _ Hin) as [_ Hin2]. rewrite L in Hin2. apply in_map_iff in Hin2.
      destruct Hin2 as (q & Hq & Hin2). exists q. split; [exact Hin2|symmetry; exact Hq].
    + intros (q & Hq & Hc). assert (Hin : In (c, k) (located l)).
      { rewrite L. apply in_map_iff. exists q. split; [symmetry; exact Hc|exact Hq]. }
      apply filter_In in Hin. tauto.
  - exact D.
  - intros q Hq. destruct (Q q Hq) as (Q1 & Q2 & Q3).
    destruct (in_reported _ _ Hq) as (phi & Hphi).
    pose proof (calcRoots_cells _ _ _ _ _ _ _ H _ Hphi) as Hc. cbn in Hc.
    split; [exact Q1|]. split; [exact (cell_proper _ _ _ Hc Hp)|]. split; [exact Q2|]. split; [exact Q3|].
    exact (proj1 (Hr q s Hc)).
  - intros z Hz Hin.
    pose proof (C23_lemma _ _ _ _ _ _ _ _ Hp H Ho Hg) as HC.
    clear -Hz Hin HC H Hp Ho Hg.
    pose proof H as H'. apply calcRoots_runs in H'.
    destruct H' as [(e & H1 & C)|(m & l1 & l2 & H1 & H2 & ->)]; [discriminate C|].
    pose proof (good_app zeros _ _ Hg) as [G1 G2].
    destruct (good_est _ zeros _ _ _ H1 G1) as (_ & m' & Hm & GA). injection Hm as <-.
    destruct (runs_correct _ zeros _ _ _ _ _ H2 Hp GA G2 Ho) as (_ & _ & _ & Z & _).
    destruct (Z z Hz Hin) as (q & Hq & Hqz). exists q. split; [|exact Hqz].
    rewrite reported_app. apply in_or_app. right. exact Hq.
Qed.

(** A strictly interior real point common to two rectangles: so is a rational one. *)
Lemma common_interior a b z : zstrict a z -> zstrict b z -> ~ interiors_disjoint a b.
Proof.
  intros [[A1 A2] [A3 A4]] [[B1 B2] [B3 B4]] D.
  assert (M : forall l1 u1 l2 u2 t, (Q2R l1 < t < Q2R u1)%R -> (Q2R l2 < t < Q2R u2)%R ->
    exists q, (l1 < q < u1 /\ l2 < q < u2)%Q).
  { clear. intros l1 u1 l2 u2 t [H1 H2] [H3 H4].
    assert (H5 : (l1 < u1)%Q) by (apply Rlt_Qlt; Lra.lra).
    assert (H6 : (l1 < u2)%Q) by (apply Rlt_Qlt; Lra.lra).
    assert (H7 : (l2 < u1)%Q) by (apply Rlt_Qlt; Lra.lra).
    assert (H8 : (l2 < u2)%Q) by (apply Rlt_Qlt; Lra.lra).
    exists ((Qmax l1 l2 + Qmin u1 u2) / 2)%Q.
    assert (G : (Qmax l1 l2 < Qmin u1 u2)%Q).
    { apply Q.max_case; [intros x y Hxy; rewrite Hxy; tauto| |];
      (apply Q.min_case; [intros x y Hxy; rewrite Hxy; tauto| |]); assumption. }
    pose proof (Q.le_max_l l1 l2). pose proof (Q.le_max_r l1 l2).
    pose proof (Q.le_min_l u1 u2). pose proof (Q.le_min_r u1 u2).
    set (A := Qmax l1 l2) in *. set (B := Qmin u1 u2) in *.
    assert (K : ((A + B) / 2 == (1 # 2) * A + (1 # 2) * B)%Q) by (field).
    rewrite K. split; split; Lqa.lra. }
  destruct (M _ _ _ _ _ (conj A1 A2) (conj B1 B2)) as (u & U1 & U2).
  destruct (M _ _ _ _ _ (conj A3 A4) (conj B3 B4)) as (v & V1 & V2).
  apply (D (u, v)). split; split; cbn [fst snd re im]; assumption.
Qed.

Lemma same_cell qs q q' z : ForallOrdPairs interiors_disjoint qs -> In q qs -> In q' qs ->
  zstrict q z -> zstrict q' z -> q = q'.
Proof.
  intros D H1 H2 Z1 Z2. destruct (ForallOrdPairs_In D q q' H1 H2) as [->|[C|C]]; [reflexivity|..].
  - exfalso. exact (common_interior _ _ _ Z1 Z2 C).
  - exfalso. exact (common_interior _ _ _ Z2 Z1 C).
Qed.

Lemma near_cell P q z : proper q -> sub_tolerance P q -> zin q z -> near P (center q) z.
Proof.
  intros Hp [S1 S2] [Z1 Z2]. apply Qlt_Rlt in S1, S2. rewrite Q2R_minus in S1, S2.
  unfold near, center, re, im. cbn [fst snd]. rewrite !Q2R_half. split; apply Rabs_def1; Lra.lra.
Qed.

Lemma within_separated t P c z z' zeros : separated (2 * t) P zeros -> In z zeros -> In z' zeros ->
  within t P c z -> within t P c z' -> z = z'.
Proof.
  intros Hs Hz Hz' [A B] [A' B']. apply Hs; [exact Hz|exact Hz'| |].
  - replace (fst z - fst z')%R with ((fst z - Q2R (re c)) - (fst z' - Q2R (re c)))%R by ring.
    unfold Rminus at 1. eapply Rle_trans; [apply Rabs_triang|]. rewrite Rabs_Ropp. Lra.lra.
  - replace (snd z - snd z')%R with ((snd z - Q2R (im c)) - (snd z' - Q2R (im c)))%R by ring.
    unfold Rminus at 1. eapply Rle_trans; [apply Rabs_triang|]. rewrite Rabs_Ropp. Lra.lra.
Qed.

(** Zeros in one small cell coincide if zeros are separated. *)
Lemma cell_cluster t P zeros q : (1 <= t)%R -> separated t P zeros -> sub_tolerance P q ->
  forall z1 z2, In z1 zeros -> In z2 zeros -> zin q z1 -> zin q z2 -> z1 = z2.
Proof.
  intros Ht Hs [S1 S2] z1 z2 H1 H2 [P1 P2] [P3 P4]. apply Qlt_Rlt in S1, S2. rewrite Q2R_minus in S1, S2.
  pose proof (Q2R_pow10_pos (- fst P)) as E1. pose proof (Q2R_pow10_pos (- snd P)) as E2.
  set (e1 := Q2R (pow10 (- fst P))) in *. set (e2 := Q2R (pow10 (- snd P))) in *.
  assert (T1 : (e1 <= t * e1)%R) by (rewrite <- (Rmult_1_l e1) at 1; apply Rmult_le_compat_r; Lra.lra).
  assert (T2 : (e2 <= t * e2)%R) by (rewrite <- (Rmult_1_l e2) at 1; apply Rmult_le_compat_r; Lra.lra).
  apply Hs; [exact H1|exact H2| |]; fold e1 e2; apply Rabs_le; Lra.lra.
Qed.
