(** Whole searches in binary64: generic part, one run of the algorithm, the container. *)
From Coq Require Import Permutation Reals Qreals Qminmax.
From Verif Require Import PyBase Rounding_Model Rounding_Proofs Container_Model Container_Spec
  Container_Proofs Finder_Model Finder_Spec Finder_Proofs Poly_Model Refine_Model Refine_Spec
  Refine_Proofs Refine_Proofs2 Zeros_Spec Zeros_Proofs Refine_Proofs3 EndToEnd_Model EndToEnd_Spec
  EndToEnd_Proofs EndToEnd_Proofs2 Float_Model Float_Spec Float_Proofs Float_Proofs2 Float_Proofs3 Float_Proofs4
  FloatGrid_Model FloatGrid_Spec FloatGrid_Proofs FloatCont_Model FloatCont_Spec FloatCont_Proofs
  FloatEnd_Model FloatEnd_Spec.
Open Scope Z_scope.

(** ** From cells to what the user sees *)
Section Conclude.
  Variables (zeros : list point) (P P' : Z * Z) (W0 : rect) (rs : list root) (qs : list rect).
  Variables (cen : rect -> cplx) (rr : root -> root).
  Variables (t : R) (reRan imRan : Q * Q) (pairs : list root).
  Hypothesis Hroots : forall r, In r rs <-> exists q, In q qs /\ r = (cen q, Z.of_nat (count zeros q)).
  Hypothesis Hcells : forall q, In q qs -> (1 <= count zeros q)%nat /\ (forall z, zin q z -> zin W0 z).
  Hypothesis Hsmall : forall q z1 z2, In q qs -> zin q z1 -> zin q z2 ->
    (Rabs (fst z1 - fst z2) <= 5 / 4 * Q2R (pow10 (- fst P)) /\
     Rabs (snd z1 - snd z2) <= 5 / 4 * Q2R (pow10 (- snd P)))%R.
  Hypothesis Hnear : forall q z o, In q qs -> zin q z -> within t P' (fst (rr (cen q, o))) z.
  Hypothesis Hsnd : forall r, snd (rr r) = snd r.
  Hypothesis Hsame : forall q q' z, In q qs -> In q' qs -> In z zeros -> zin q z -> zin q' z -> q = q'.
  Hypothesis Hzeros : forall z, In z zeros -> zin W0 z -> exists q, In q qs /\ zin q z.
  Hypothesis Hpairs : forall pr, In pr pairs <-> exists r, In r rs /\ pr = rr r.
  Hypothesis Hreq : forall z, requested reRan imRan z -> zin W0 z.
  Hypothesis Halm : forall z, zin W0 z -> about_requested P reRan imRan z.

  Notation value q := (rr (cen q, Z.of_nat (count zeros q))).
  Lemma g_pair_cell c k : In (c, k) pairs -> exists q, In q qs /\ (c, k) = value q.
  Proof.
    intro H. apply Hpairs in H. destruct H as (r & Hr & E). apply Hroots in Hr.
    destruct Hr as (q & Hq & ->). exists q. auto.
  Qed.
  Lemma g_cell_pair q : In q qs -> In (value q) pairs.
  Proof.
    intro H. apply Hpairs. exists (cen q, Z.of_nat (count zeros q)). split; [|reflexivity].
    apply Hroots. exists q. auto.
  Qed.
  Lemma g_value q : value q = (fst (value q), Z.of_nat (count zeros q)).
  Proof.
    pose proof (Hsnd (cen q, Z.of_nat (count zeros q))) as H. destruct (value q) as [c k]. cbn [fst snd] in *.
    rewrite H. reflexivity.
  Qed.
  Lemma g_cluster q : separated (5 / 4) P zeros -> In q qs ->
    forall z1 z2, In z1 zeros -> In z2 zeros -> zin q z1 -> zin q z2 -> z1 = z2.
  Proof. intros Hs Hq z1 z2 H1 H2 Z1 Z2. destruct (Hsmall q z1 z2 Hq Z1 Z2). apply Hs; assumption. Qed.

  Lemma g_found : all_found t P' zeros reRan imRan pairs.
  Proof.
    intros z Hz Hr. destruct (Hzeros z Hz (Hreq z Hr)) as (q & Hq & Hqz).
    exists (fst (value q)), (Z.of_nat (count zeros q)).
    split; [rewrite <- g_value; exact (g_cell_pair q Hq)|]. destruct (Hcells q Hq) as [C _].
    split; [lia|]. apply Hnear; assumption.
  Qed.
  Lemma g_genuine : genuine64 t P' P zeros reRan imRan pairs.
  Proof.
    intros c k H. destruct (g_pair_cell c k H) as (q & Hq & E).
    destruct (Hcells q Hq) as [C1 C2]. destruct (count_pos zeros q C1) as (z & Hz & Hqz).
    pose proof (Hnear q z (Z.of_nat (count zeros q)) Hq Hqz) as W.
    rewrite <- E in W. rewrite g_value in E. injection E as _ ->. split; [lia|]. exists z. split; [exact Hz|].
    split; [apply Halm, C2, Hqz|exact W].
  Qed.
  Lemma g_orders : separated (5 / 4) P zeros -> orders64 t P' P zeros reRan imRan pairs.
  Proof.
    intros Hs c k H. destruct (g_pair_cell c k H) as (q & Hq & E).
    destruct (Hcells q Hq) as [C1 C2]. destruct (count_pos zeros q C1) as (z & Hz & Hqz).
    pose proof (Hnear q z (Z.of_nat (count zeros q)) Hq Hqz) as W.
    rewrite <- E in W. rewrite g_value in E. injection E as _ ->. exists z. split; [exact Hz|].
    split; [apply Halm, C2, Hqz|]. split; [exact W|]. intro dec. f_equal.
    apply count_one_cluster; [|exact Hz|exact Hqz]. exact (g_cluster q Hs Hq).
  Qed.
  Lemma g_unique : separated (5 / 4) P zeros -> separated (2 * t) P' zeros ->
    exactly_once t P' zeros reRan imRan pairs.
  Proof.
    intros Hs Hs2 z Hz Hr. destruct (Hzeros z Hz (Hreq z Hr)) as (q & Hq & Hqz).
    exists (fst (value q)), (Z.of_nat (count zeros q)).
    split; [rewrite <- g_value; exact (g_cell_pair q Hq)|]. split; [apply Hnear; assumption|].
    split.
    { intro dec. f_equal. apply count_one_cluster; [|exact Hz|exact Hqz]. exact (g_cluster q Hs Hq). }
    intros c' k' H W. destruct (g_pair_cell c' k' H) as (q' & Hq' & E).
    destruct (Hcells q' Hq') as [C1 C2]. destruct (count_pos zeros q' C1) as (z' & Hz' & Hqz').
    pose proof (Hnear q' z' (Z.of_nat (count zeros q')) Hq' Hqz') as W'. rewrite <- E in W'. cbn [fst] in W'.
    assert (z' = z) as -> by exact (within_separated t P' c' z' z zeros Hs2 Hz' Hz W' W).
    assert (q' = q) as -> by exact (Hsame q' q z Hq' Hq Hz Hqz' Hqz).
    rewrite E. apply g_value.
  Qed.
End Conclude.

(** ** Feeding a fresh container *)
Section Feed.
  Variable rd : Z -> Q -> Q.
  Hypothesis Hrd : forall n x, Qred (rd n x) = rd n x.

  Lemma froundRoot_canon r p : canon (froundRoot rd r p).
  Proof. split; apply Hrd. Qed.

  Lemma ffeed_some ctx l : forall c, rc_filters c = [] -> rc_precision c = fc_precision ctx -> Forall canon (rc_set c) ->
    snd (ffeed rd ctx l c) = Ok tt /\
    forall pr, In pr (rc_set (fst (ffeed rd ctx l c))) <->
      In pr (rc_set c) \/ exists i r, In (i, r) l /\ pr = froundRoot rd r (fc_precision ctx).
  Proof.
    induction l as [|[i r] l IH]; intros c Hf Hp Hc.
    - cbn [ffeed fst snd]. split; [reflexivity|]. intro pr. split; [auto|].
      intros [H|(i & r & [] & _)]; exact H.
    - cbn [ffeed]. unfold frc_add. rewrite Hf. cbn [run_filters].
      assert (Hpe : prec_eqb (fc_precision ctx) (rc_precision c) = true).
      { rewrite Hp. unfold prec_eqb. rewrite !Z.eqb_refl. reflexivity. }
      rewrite Hpe. cbn [negb]. rewrite Hp.
      set (s := froundRoot rd r (fc_precision ctx)).
      assert (Ks : canon s) by apply froundRoot_canon.
      destruct (i && set_mem s (rc_set c)) eqn:Hm.
      + apply andb_true_iff in Hm. destruct Hm as [_ Hm]. apply set_mem_iff in Hm; [|exact Ks|exact Hc].
        destruct (IH c Hf Hp Hc) as [I1 I2]. split; [exact I1|]. intro pr. rewrite I2. split.
        * intros [H|(j & r' & H1 & H2)]; [auto|]. right. exists j, r'. split; [right; exact H1|exact H2].
        * intros [H|(j & r' & [H1|H1] & H2)]; [auto| |].
          -- injection H1 as <- <-. left. rewrite H2. exact Hm.
          -- right. exists j, r'. auto.
      + destruct (IH (mkRC (fc_precision ctx) (set_add s (rc_set c)) [])) as [I1 I2].
        { reflexivity. } { reflexivity. }
        { cbn [rc_set]. apply Forall_forall. intros x Hx. apply set_add_in in Hx; [|exact Ks|exact Hc].
          destruct Hx as [->|Hx]; [exact Ks|]. rewrite Forall_forall in Hc. auto. }
        rewrite Hf. split; [exact I1|]. intro pr. rewrite I2. cbn [rc_set]. rewrite set_add_in; [|exact Ks|exact Hc]. split.
        * intros [[->|H]|(j & r' & H1 & H2)].
          -- right. exists i, r. split; [left; reflexivity|reflexivity].
          -- auto.
          -- right. exists j, r'. split; [right; exact H1|exact H2].
        * intros [H|(j & r' & [H1|H1] & H2)]; [auto| |].
          -- injection H1 as <- <-. left. left. exact H2.
          -- right. exists j, r'. auto.
  Qed.

  Lemma ffeed_change ctx i r l c : rc_filters c = [] ->
    prec_eqb (fc_precision ctx) (rc_precision c) = false ->
    ffeed rd ctx ((i, r) :: l) c = ffeed rd ctx ((i, r) :: l) (mkRC (fc_precision ctx) [] []).
  Proof.
    intros Hf Hp. cbn [ffeed]. unfold frc_add. rewrite Hf. cbn [run_filters rc_filters rc_precision].
    rewrite Hp. unfold rc_clear. cbn [negb rc_precision rc_set rc_filters].
    assert (Hpe : prec_eqb (fc_precision ctx) (fc_precision ctx) = true).
    { unfold prec_eqb. rewrite !Z.eqb_refl. reflexivity. }
    rewrite Hpe, Hf. cbn [negb rc_precision rc_set rc_filters]. reflexivity.
  Qed.

  Lemma fresh_ffeed ctx l p sp iter : iteration_order iter ->
    snd (ffeed rd ctx l (rc_init p sp)) = Ok tt /\
    forall pr, In pr (reported_pairs iter (fst (ffeed rd ctx l (rc_init p sp)))) <->
      exists i r, In (i, r) l /\ pr = froundRoot rd r (fc_precision ctx).
  Proof.
    intro HI.
    assert (G : snd (ffeed rd ctx l (rc_init p sp)) = Ok tt /\
      forall pr, In pr (rc_set (fst (ffeed rd ctx l (rc_init p sp)))) <->
        exists i r, In (i, r) l /\ pr = froundRoot rd r (fc_precision ctx)).
    { assert (F : forall c, rc_filters c = [] -> rc_set c = [] ->
         (rc_precision c = fc_precision ctx \/ prec_eqb (fc_precision ctx) (rc_precision c) = false) ->
         snd (ffeed rd ctx l c) = Ok tt /\
         forall pr, In pr (rc_set (fst (ffeed rd ctx l c))) <->
           exists i r, In (i, r) l /\ pr = froundRoot rd r (fc_precision ctx)).
      { intros c Hf Hs Hp.
        assert (G : forall c, rc_filters c = [] -> rc_set c = [] -> rc_precision c = fc_precision ctx ->
          snd (ffeed rd ctx l c) = Ok tt /\
          forall pr, In pr (rc_set (fst (ffeed rd ctx l c))) <->
            exists i r, In (i, r) l /\ pr = froundRoot rd r (fc_precision ctx)).
        { clear c Hf Hs Hp. intros c Hf Hs Hp.
          destruct (ffeed_some ctx l c Hf Hp) as [G1 G2]; [rewrite Hs; constructor|].
          split; [exact G1|]. intro pr. rewrite G2, Hs. split; [intros [[]|H]; exact H|auto]. }
        destruct Hp as [Hp|Hp]; [apply G; assumption|].
        destruct l as [|[i r] l'].
        - cbn [ffeed fst snd]. split; [reflexivity|]. intro pr. rewrite Hs. split; [intros []|intros (i & r & [] & _)].
        - rewrite (ffeed_change ctx i r l' c Hf Hp). apply G; reflexivity. }
      apply F; [reflexivity|reflexivity|].
      destruct (prec_eqb (fc_precision ctx) (rc_precision (rc_init p sp))) eqn:H; [left|right; reflexivity].
      unfold prec_eqb in H. apply andb_true_iff in H. destruct H as [H1 H2]. apply Z.eqb_eq in H1, H2.
      destruct (rc_precision (rc_init p sp)), (fc_precision ctx). cbn in H1, H2. congruence. }
    destruct G as [G1 G2]. split; [exact G1|]. intro pr. rewrite reported_pairs_in by exact HI. apply G2.
  Qed.
End Feed.

Lemma rnd64_canon x : Qred (rnd64 x) = rnd64 x.
Proof. unfold rnd64. destruct (Qeq_bool x 0); [reflexivity|]. cbv zeta. apply Qred_complete, Qred_correct. Qed.
