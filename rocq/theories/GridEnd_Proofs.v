From Coq Require Import Reals Qreals Qminmax Permutation Lra Lqa.
From Verif Require Import PyBase Rounding_Model Rounding_Spec Rounding_Proofs Container_Model Container_Spec
  Container_Proofs Finder_Model Finder_Spec Finder_Proofs Refine_Model Refine_Spec Refine_Proofs2 Zeros_Spec
  Grid_Model Grid_Spec Grid_Proofs EndToEnd_Model EndToEnd_Spec GridEnd_Model GridEnd_Spec.
Open Scope Z_scope.

Lemma nth_error_of_nth {A} (l : list A) k d : (k < List.length l)%nat -> nth_error l k = Some (nth k l d).
Proof. intro H. apply nth_error_nth'. exact H. Qed.

Lemma ceq_trans' a b c : ceq a b -> ceq b c -> ceq a c.
Proof. intros [A B] [C D]. split; etransitivity; eassumption. Qed.

Lemma start_grid_points m x : start_grid m (cx_reRan x) (cx_imRan x) (grid_points m (rect_of x)).
Proof.
  split; [apply grid_length|]. intros i j Hi Hj.
  exists (nth (i * m + j) (grid_points m (rect_of x)) (0, 0)%Q). split.
  - apply nth_error_of_nth. rewrite grid_length. nia.
  - exact (grid_nth m (rect_of x) i j Hi Hj).
Qed.

Lemma grid_run_ok newton m progress task info x ends :
  newton (cx_f x) (cx_df x) (grid_points m (rect_of x)) = Ok ends ->
  grid_algorithm newton m progress task info x = mkRun (map (fun z => (info (z, 0), (z, 0))) ends) None.
Proof.
  intro H. unfold grid_algorithm, grid_calcRoots. rewrite H. f_equal.
  destruct (progress && _)%bool.
  - rewrite roots_of_grid. change (roots_of [EvAdvance _]) with (@nil root). rewrite app_nil_r, map_map. reflexivity.
  - rewrite roots_of_grid. cbn [roots_of]. rewrite app_nil_r, map_map. reflexivity.
Qed.

Lemma grid_run_err newton m progress task info x e :
  newton (cx_f x) (cx_df x) (grid_points m (rect_of x)) = Err e ->
  grid_algorithm newton m progress task info x = mkRun [] (if catches_RuntimeError e then None else Some e).
Proof.
  intro H. unfold grid_algorithm, grid_calcRoots. rewrite H. destruct (catches_RuntimeError e); reflexivity.
Qed.

(** What a search leaves behind, for any algorithm. *)
Lemma serial_char f df dflt alg reRan imRan prec p sp h iter : iteration_order iter ->
  let x := serial_context f df dflt reRan imRan prec in
  let ctx := toFilterContext x in
  let c := rc_run h (rc_init p sp) in
  let P := one_more (decimals dflt prec) in
  let out := calculateRoots f df dflt alg reRan imRan prec c in
  (forall i r, In (i, r) (ar_reports (alg x)) -> filters_total h r ctx) ->
  snd out = (match ar_end (alg x) with None | Some KeyboardInterrupt => Ok tt | Some e => Err e end) /\
  forall pr, In pr (reported_pairs iter (fst out)) <->
    (exists i r, In (i, r) (ar_reports (alg x)) /\ accepted h r ctx /\ rounded P r pr) \/
    (In pr (reported_pairs iter c) /\
      (P = rc_precision c \/ forall i r, In (i, r) (ar_reports (alg x)) -> ~ accepted h r ctx)).
Proof.
  intros HI x ctx c P out FT.
  assert (T : forall ir, In ir (ar_reports (alg x)) -> exists b, run_filters (rc_filters c) (snd ir) ctx = Ok b).
  { intros [i r] Hin. cbn [snd]. destruct (run_filters (rc_filters c) r ctx) as [b|e] eqn:E; [eauto|].
    exfalso. apply run_filters_err in E. destruct E as (k & q & Hk & X).
    assert (Rg : registered h k q).
    { apply (filters_registered p sp). apply In_dget; [apply String.eqb_eq| |exact Hk].
      apply (inv_keys _ (rc_after_inv p sp h)). }
    destruct (FT i r Hin k q Rg) as [b Y]. congruence. }
  assert (AA : forall r, acc c ctx r <-> accepted h r ctx) by (intro r; apply accepts_iff).
  pose proof (feed_total ctx (ar_reports (alg x)) c T) as FE.
  split.
  - unfold out, calculateRoots. fold x ctx. rewrite FE. destruct (ar_end (alg x)) as [[]|]; reflexivity.
  - intro pr. rewrite !reported_pairs_in by exact HI. unfold out. rewrite calculateRoots_state. fold x ctx.
    rewrite FE. cbn [fst]. setoid_rewrite rounded_iff.
    assert (PP : fc_precision ctx = P) by reflexivity.
    destruct (acc_dec_list c ctx (ar_reports (alg x))) as [D|D].
    + destruct (adds_some ctx (ar_reports (alg x)) c (rc_after_inv p sp h) D) as [_ S]. rewrite S, PP. split.
      * intros [([i r] & B1 & B2 & B3)|[X Y]]; [|right; auto].
        left. exists i, r. split; [exact B1|]. split; [apply AA, B2|exact B3].
      * intros [(i & r & B1 & B2 & B3)|[X [Y|N]]].
        -- left. exists (i, r). split; [exact B1|]. split; [apply AA, B2|exact B3].
        -- right. auto.
        -- exfalso. destruct D as ([i r] & B1 & B2). apply (N i r B1), AA, B2.
    + rewrite adds_none by exact D. split.
      * intro X. right. split; [exact X|]. right. intros i r Hr A. apply (D (i, r) Hr). apply AA, A.
      * intros [(i & r & B1 & B2 & B3)|[X _]]; [|exact X].
        exfalso. apply (D (i, r) B1), AA, B2.
Qed.

Section Serial.
  Variables (newton : holoFunc -> option holoFunc -> list cplx -> res (list cplx)) (m : nat).
  Variables (progress : bool) (task : option Z) (info : root -> bool).
  Variables (f : holoFunc) (df : option holoFunc) (dflt : Z * Z) (reRan imRan : Q * Q) (prec : option (Z * Z)).
  Variables (p : option (Z * Z)) (sp : Z * Z) (h : list rc_op) (iter : list root -> list root).
  Hypothesis HI : iteration_order iter.

  Let P := one_more (decimals dflt prec).
  Let c := rc_run h (rc_init p sp).
  Let alg := grid_algorithm newton m progress task info.
  Let out := calculateRoots f df dflt alg reRan imRan prec c.
  Let x := serial_context f df dflt reRan imRan prec.

  Lemma domain_enlarged : enlarged reRan imRan P (cx_reRan x) (cx_imRan x).
  Proof. pose proof (search_context_spec f df dflt reRan imRan prec) as H. cbn zeta in H. apply H. Qed.

  Lemma serial_grid :
    exists re' im' starts, enlarged reRan imRan P re' im' /\ start_grid m re' im' starts /\
      let ctx := mkFctx f re' im' P 3 in
      (forall e, newton f df starts = Err e ->
         fst out = c /\
         (is_RuntimeError e \/ e = KeyboardInterrupt -> snd out = Ok tt) /\
         (~ is_RuntimeError e -> e <> KeyboardInterrupt -> snd out = Err e)) /\
      (forall ends, newton f df starts = Ok ends ->
         (forall z, In z ends -> filters_total h (z, 0) ctx) ->
         snd out = Ok tt /\
         forall pr, In pr (reported_pairs iter (fst out)) <->
           (exists z, In z ends /\ accepted h (z, 0) ctx /\ rounded P (z, 0) pr) \/
           (In pr (reported_pairs iter c) /\
             (P = rc_precision c \/ forall z, In z ends -> ~ accepted h (z, 0) ctx))).
  Proof.
    exists (cx_reRan x), (cx_imRan x), (grid_points m (rect_of x)).
    split; [apply domain_enlarged|]. split; [apply start_grid_points|].
    cbn zeta. change (mkFctx f (cx_reRan x) (cx_imRan x) P 3) with (toFilterContext x). split.
    - intros e He. pose proof (grid_run_err newton m progress task info x e He) as R.
      unfold out, calculateRoots. fold x. fold alg in R. rewrite R. cbn [ar_reports ar_end feed].
      split; [destruct (catches_RuntimeError e); [reflexivity|destruct e; reflexivity]|].
      split.
      + intros [[->|[->| ->]]| ->]; reflexivity.
      + intros H1 H2. destruct e; try reflexivity; try contradiction; exfalso; apply H1; unfold is_RuntimeError; auto.
    - intros ends He FT. pose proof (grid_run_ok newton m progress task info x ends He) as R. fold alg in R.
      pose proof (serial_char f df dflt alg reRan imRan prec p sp h iter HI) as SC. cbn zeta in SC.
      fold x P c out in SC. rewrite R in SC. cbn [ar_reports ar_end] in SC.
      assert (MI : forall i r, In (i, r) (map (fun z => (info (z, 0), (z, 0))) ends) <->
                (exists z, In z ends /\ i = info (z, 0) /\ r = (z, 0))).
      { intros i r. rewrite in_map_iff. split.
        - intros (z & E & Hz). exists z. split; [exact Hz|]. split; congruence.
        - intros (z & Hz & E1 & E2). exists z. subst. auto. }
      destruct SC as [S1 S2].
      { intros i r Hr. apply MI in Hr. destruct Hr as (z & Hz & _ & ->). apply FT, Hz. }
      split; [exact S1|]. intro pr. rewrite S2. split.
      + intros [(i & r & H1 & H2 & H3)|[H1 [H2|H2]]].
        * apply MI in H1. destruct H1 as (z & Hz & _ & ->). left. exists z. auto.
        * right. auto.
        * right. split; [exact H1|]. right. intros z Hz. apply (H2 (info (z, 0)) (z, 0)). apply MI. exists z. auto.
      + intros [(z & H1 & H2 & H3)|[H1 [H2|H2]]].
        * left. exists (info (z, 0)), (z, 0). split; [apply MI; exists z; auto|auto].
        * right. auto.
        * right. split; [exact H1|]. right. intros i r Hr. apply MI in Hr. destruct Hr as (z & Hz & _ & ->).
          apply H2, Hz.
  Qed.
End Serial.
