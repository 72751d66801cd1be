From Coq Require Import Permutation Qminmax.
From Verif Require Import PyBase Rounding_Model Rounding_Spec Rounding_Proofs Container_Model Container_Spec
  Container_Proofs Finder_Model Finder_Spec.
Open Scope Z_scope.

(** ** Desymmetrization *)
Lemma sorted2_min_max r :
  (fst (sorted2 r) == Qmin (fst r) (snd r) /\ snd (sorted2 r) == Qmax (fst r) (snd r))%Q.
Proof.
  destruct r as [a b]. unfold sorted2; cbn [fst snd].
  destruct (Qltb_spec b a) as [H|H]; cbn [fst snd].
  - rewrite Q.min_r, Q.max_l by lra. split; reflexivity.
  - rewrite Q.min_l, Q.max_r by lra. split; reflexivity.
Qed.

Lemma desym_eq reRan imRan p :
  let d := desymmetrizeDomain reRan imRan p in
  (fst (fst d) == Qmin (fst reRan) (snd reRan) - pow10 (- fst p) /\
   snd (fst d) == Qmax (fst reRan) (snd reRan) + 2 * pow10 (- fst p) /\
   fst (snd d) == Qmin (fst imRan) (snd imRan) - 3 * pow10 (- snd p) /\
   snd (snd d) == Qmax (fst imRan) (snd imRan) + 4 * pow10 (- snd p))%Q.
Proof.
  cbn zeta. unfold desymmetrizeDomain.
  pose proof (sorted2_min_max reRan) as [A B]. pose proof (sorted2_min_max imRan) as [C D].
  destruct (sorted2 reRan) as [x1 x2], (sorted2 imRan) as [y1 y2]. cbn [fst snd] in *.
  replace (-1 * fst p)%Z with (- fst p)%Z by lia.
  replace (-1 * snd p)%Z with (- snd p)%Z by lia.
  rewrite A, B, C, D. repeat split; ring.
Qed.

Lemma desym_swap a b c d p :
  let r1 := desymmetrizeDomain (a, b) (c, d) p in
  let r2 := desymmetrizeDomain (b, a) (d, c) p in
  (fst (fst r1) == fst (fst r2) /\ snd (fst r1) == snd (fst r2) /\
   fst (snd r1) == fst (snd r2) /\ snd (snd r1) == snd (snd r2))%Q.
Proof.
  cbn zeta.
  destruct (desym_eq (a, b) (c, d) p) as (A1 & A2 & A3 & A4).
  destruct (desym_eq (b, a) (d, c) p) as (B1 & B2 & B3 & B4).
  cbn [fst snd] in *. rewrite A1, A2, A3, A4, B1, B2, B3, B4.
  rewrite (Q.min_comm a b), (Q.max_comm a b), (Q.min_comm c d), (Q.max_comm c d).
  repeat split; reflexivity.
Qed.

Lemma desym_contains reRan imRan p z :
  (Qmin (fst reRan) (snd reRan) <= re z <= Qmax (fst reRan) (snd reRan) ->
   Qmin (fst imRan) (snd imRan) <= im z <= Qmax (fst imRan) (snd imRan) ->
   let d := desymmetrizeDomain reRan imRan p in
   strictly_in_rect (fst d) (snd d) z)%Q.
Proof.
  intros H1 H2 d. destruct (desym_eq reRan imRan p) as (A & B & C & D).
  fold d in A, B, C, D. unfold strictly_in_rect.
  pose proof (pow10_pos (- fst p)). pose proof (pow10_pos (- snd p)).
  rewrite A, B, C, D. lra.
Qed.

Lemma desym_not_centred reRan imRan p :
  let d := desymmetrizeDomain reRan imRan p in
  (~ fst (fst d) + snd (fst d) == fst reRan + snd reRan /\
   ~ fst (snd d) + snd (snd d) == fst imRan + snd imRan)%Q.
Proof.
  cbn zeta. destruct (desym_eq reRan imRan p) as (A & B & C & D).
  rewrite A, B, C, D.
  assert (MM : forall a b : Q, (Qmin a b + Qmax a b == a + b)%Q).
  { intros a b. destruct (Qlt_le_dec a b) as [L|L].
    - rewrite Q.min_l, Q.max_r by lra. reflexivity.
    - rewrite Q.min_r, Q.max_l by lra. ring. }
  pose proof (MM (fst reRan) (snd reRan)). pose proof (MM (fst imRan) (snd imRan)).
  pose proof (pow10_pos (- fst p)). pose proof (pow10_pos (- snd p)).
  split; intro X; lra.
Qed.

(** ** Adding many roots in one context *)
Definition adds (ctx : fctx) (l : list (bool * root)) : list rc_op :=
  map (fun ir => RAdd (fst ir) (snd ir) ctx) l.

Lemma feed_run ctx l c :
  exists l1 l2, l = l1 ++ l2 /\ fst (feed ctx l c) = rc_run (adds ctx l1) c /\
    (is_ok (snd (feed ctx l c)) = true -> l2 = []).
Proof.
  revert c. induction l as [|[i r] l IH]; intro c.
  - exists [], []. auto.
  - cbn [feed]. destruct (rc_add i r ctx c) as [c' [u|e]] eqn:E.
    + destruct (IH c') as (l1 & l2 & E1 & E2 & E3). exists ((i, r) :: l1), l2.
      split; [cbn; congruence|]. split; [|exact E3].
      rewrite E2. cbn. rewrite E. reflexivity.
    + exists [], ((i, r) :: l). split; [reflexivity|]. split; [|discriminate].
      cbn. unfold rc_add in E. destruct (run_filters _ _ _) as [[|]|e'];
        cbn zeta in E.
      * exfalso. revert E. destruct (_ && _); discriminate.
      * inversion E.
      * inversion E; reflexivity.
Qed.

Lemma feed_total ctx l c :
  (forall ir, In ir l -> exists b, run_filters (rc_filters c) (snd ir) ctx = Ok b) ->
  feed ctx l c = (rc_run (adds ctx l) c, Ok tt).
Proof.
  revert c. induction l as [|[i r] l IH]; intros c H; [reflexivity|].
  cbn [feed]. destruct (H (i, r) (or_introl eq_refl)) as [b Hb]. cbn [snd] in Hb.
  destruct b.
  - rewrite rc_add_accept by exact Hb. rewrite IH.
    + cbn. rewrite rc_add_accept by exact Hb. reflexivity.
    + intros ir I. cbn. apply H. right. exact I.
  - assert (E : rc_add i r ctx c = (c, Ok tt)) by (unfold rc_add; rewrite Hb; reflexivity).
    rewrite E. rewrite IH; [|intros ir I; apply H; right; exact I].
    cbn. rewrite E. reflexivity.
Qed.

Lemma adds_filters ctx l c : rc_filters (rc_run (adds ctx l) c) = rc_filters c.
Proof.
  revert c. induction l as [|[i r] l IH]; intro c; [reflexivity|].
  cbn. rewrite IH.
  destruct (run_filters_dec (rc_filters c) r ctx) as [H|H].
  - rewrite rc_add_accept by exact H. reflexivity.
  - rewrite rc_add_reject by exact H. reflexivity.
Qed.

Definition acc (c : rcont) (ctx : fctx) (r : root) : Prop := run_filters (rc_filters c) r ctx = Ok true.

Lemma adds_none ctx l c : (forall ir, In ir l -> ~ acc c ctx (snd ir)) -> rc_run (adds ctx l) c = c.
Proof.
  induction l as [|[i r] l IH]; intro H; [reflexivity|].
  cbn. rewrite rc_add_reject.
  - apply IH. intros ir I. apply H. right. exact I.
  - apply (H (i, r)). left. reflexivity.
Qed.

Lemma prec_eqb_refl p : prec_eqb p p = true.
Proof. apply prec_eqb_eq. reflexivity. Qed.

Lemma adds_some ctx l c : rc_inv c ->
  (exists ir, In ir l /\ acc c ctx (snd ir)) ->
  rc_precision (rc_run (adds ctx l) c) = fc_precision ctx /\
  forall x, In x (rc_set (rc_run (adds ctx l) c)) <->
    (exists ir, In ir l /\ acc c ctx (snd ir) /\ x = roundRoot (snd ir) (fc_precision ctx)) \/
    (fc_precision ctx = rc_precision c /\ In x (rc_set c)).
Proof.
  revert c. induction l as [|[i r] l IH]; intros c I (ir & Hin & Hacc); [destruct Hin|].
  destruct (run_filters_dec (rc_filters c) r ctx) as [H|H].
  - assert (Step : rc_run (adds ctx ((i, r) :: l)) c
             = rc_run (adds ctx l) (rc_add_core r (fc_precision ctx) c)).
    { cbn. rewrite rc_add_accept by exact H. reflexivity. }
    rewrite Step. set (c1 := rc_add_core r (fc_precision ctx) c).
    assert (I1 : rc_inv c1) by (apply rc_add_core_inv, I).
    assert (F1 : rc_filters c1 = rc_filters c) by reflexivity.
    assert (S1 : forall x, In x (rc_set c1) <-> x = roundRoot r (fc_precision ctx) \/
              (fc_precision ctx = rc_precision c /\ In x (rc_set c))).
    { intro x. unfold c1, rc_add_core; cbn [rc_set]. rewrite set_add_in.
      - destruct (prec_eqb (fc_precision ctx) (rc_precision c)) eqn:E.
        + apply prec_eqb_eq in E. tauto.
        + split; [intros [->|[]]; auto|]. intros [->|[X _]]; [auto|].
          apply prec_eqb_eq in X. congruence.
      - apply roundRoot_canon.
      - destruct (prec_eqb _ _); [apply inv_canon, I|constructor]. }
    assert (D : (exists ir, In ir l /\ acc c1 ctx (snd ir)) \/
                (forall ir, In ir l -> ~ acc c1 ctx (snd ir))).
    { clear. induction l as [|a l IHl]; [right; intros ? []|].
      destruct (run_filters_dec (rc_filters c1) (snd a) ctx) as [Y|Y].
      - left. exists a. split; [left; auto|exact Y].
      - destruct IHl as [(b & B1 & B2)|N]; [left; exists b; split; [right; auto|exact B2]|].
        right. intros b [<-|B]; [exact Y|apply N, B]. }
    destruct D as [D|D].
    + destruct (IH c1 I1 D) as [P S]. split; [exact P|].
      intro x. rewrite S. unfold acc in *. rewrite F1. rewrite S1. cbn [rc_precision c1 rc_add_core].
      split.
      * intros [(b & B1 & B2 & B3)|[_ [->|B]]].
        -- left. exists b. split; [right; exact B1|auto].
        -- left. exists (i, r). split; [left; auto|auto].
        -- right. exact B.
      * intros [(b & [<-|B1] & B2 & B3)|B].
        -- right. cbn in B3. auto.
        -- left. exists b. auto.
        -- right. auto.
    + rewrite adds_none by exact D. split; [reflexivity|].
      intro x. rewrite S1. split.
      * intros [->|B]; [left; exists (i, r); split; [left; auto|auto]|auto].
      * intros [(b & [<-|B1] & B2 & B3)|B]; [auto| |auto].
        exfalso. apply (D b B1). unfold acc. rewrite F1. exact B2.
  - assert (Step : rc_run (adds ctx ((i, r) :: l)) c = rc_run (adds ctx l) c).
    { cbn. rewrite rc_add_reject by exact H. reflexivity. }
    rewrite Step.
    assert (D : exists ir, In ir l /\ acc c ctx (snd ir)).
    { destruct Hin as [<-|Hin]; [contradiction|]. exists ir. auto. }
    destruct (IH c I D) as [P S]. split; [exact P|].
    intro x. rewrite S. split.
    + intros [(b & B1 & B2 & B3)|B]; [left; exists b; split; [right; exact B1|auto]|auto].
    + intros [(b & [<-|B1] & B2 & B3)|B]; [contradiction| |auto].
      left. exists b. auto.
Qed.

Lemma acc_dec_list c ctx (l : list (bool * root)) :
  (exists ir, In ir l /\ acc c ctx (snd ir)) \/ (forall ir, In ir l -> ~ acc c ctx (snd ir)).
Proof.
  induction l as [|a l IHl]; [right; intros ? []|].
  destruct (run_filters_dec (rc_filters c) (snd a) ctx) as [Y|Y].
  - left. exists a. split; [left; auto|exact Y].
  - destruct IHl as [(b & B1 & B2)|N]; [left; exists b; split; [right; auto|exact B2]|].
    right. intros b [<-|B]; [exact Y|apply N, B].
Qed.

(** ** Serial finder *)
Lemma calculateRoots_state f df dflt alg reRan imRan prec c :
  fst (calculateRoots f df dflt alg reRan imRan prec c) =
  fst (feed (toFilterContext (serial_context f df dflt reRan imRan prec))
        (ar_reports (alg (serial_context f df dflt reRan imRan prec))) c).
Proof.
  unfold calculateRoots. destruct (feed _ _ _) as [c' [u|e]]; cbn.
  - destruct (ar_end _) as [[]|]; reflexivity.
  - destruct e; reflexivity.
Qed.

Lemma serial_ctx_prec f df dflt reRan imRan prec :
  fc_precision (toFilterContext (serial_context f df dflt reRan imRan prec)) =
  search_precision dflt prec.
Proof. reflexivity. Qed.

Lemma adds_mono ctx l c x : rc_inv c -> fc_precision ctx = rc_precision c ->
  In x (rc_set c) -> In x (rc_set (rc_run (adds ctx l) c)).
Proof.
  intros I P H. destruct (acc_dec_list c ctx l) as [D|D].
  - destruct (adds_some ctx l c I D) as [_ S]. apply S. right. auto.
  - rewrite adds_none by exact D. exact H.
Qed.

Section Serial.
  Variables (f : holoFunc) (df : option holoFunc) (dflt : Z * Z) (alg : rctx -> alg_run).
  Variables (reRan imRan : Q * Q) (prec : option (Z * Z)).
  Variables (p : option (Z * Z)) (sp : Z * Z) (h : list rc_op).
  Variable iter : list root -> list root.
  Hypothesis HI : iteration_order iter.

  Let x := serial_context f df dflt reRan imRan prec.
  Let ctx := toFilterContext x.
  Let c := rc_after p sp h.
  Let c' := fst (calculateRoots f df dflt alg reRan imRan prec c).

  Lemma acc_accepted r : acc c ctx r <-> accepted h r ctx.
  Proof. unfold acc, c. apply accepts_iff. Qed.

  Lemma C12_accumulate_lemma :
    search_precision dflt prec = rc_precision c ->
    forall pr, In pr (reported_pairs iter c) -> In pr (reported_pairs iter c').
  Proof.
    intros HP pr. rewrite !reported_pairs_in by exact HI. intro H.
    unfold c'. rewrite calculateRoots_state.
    destruct (feed_run ctx (ar_reports (alg x)) c) as (l1 & l2 & _ & E & _).
    fold x. fold ctx. rewrite E. apply adds_mono; [apply rc_after_inv| |exact H].
    unfold ctx, x. rewrite serial_ctx_prec. exact HP.
  Qed.

  Lemma C12_only_new_or_old : forall pr, In pr (reported_pairs iter c') ->
    In pr (reported_pairs iter c) \/
    exists i r, In (i, r) (ar_reports (alg x)) /\ accepted h r ctx /\
      pr = roundRoot r (search_precision dflt prec).
  Proof.
    intros pr. rewrite !reported_pairs_in by exact HI. intro H.
    unfold c' in H. rewrite calculateRoots_state in H. fold x ctx in H.
    destruct (feed_run ctx (ar_reports (alg x)) c) as (l1 & l2 & E0 & E & _).
    rewrite E in H. destruct (acc_dec_list c ctx l1) as [D|D].
    - destruct (adds_some ctx l1 c (rc_after_inv p sp h) D) as [_ S]. apply S in H.
      destruct H as [([i r] & B1 & B2 & B3)|[_ H]]; [|left; exact H].
      right. exists i, r. split; [rewrite E0; apply in_or_app; auto|].
      split; [apply acc_accepted, B2|exact B3].
    - rewrite adds_none in H by exact D. left. exact H.
  Qed.

  Lemma C12_restart_lemma :
    search_precision dflt prec <> rc_precision c ->
    (forall i r, In (i, r) (ar_reports (alg x)) -> filters_total h r ctx) ->
    (exists i r, In (i, r) (ar_reports (alg x)) /\ accepted h r ctx) ->
    forall pr, In pr (reported_pairs iter c') <->
      exists i r, In (i, r) (ar_reports (alg x)) /\ accepted h r ctx /\
        pr = roundRoot r (search_precision dflt prec).
  Proof.
    intros NP FT (i0 & r0 & I0 & A0) pr. rewrite reported_pairs_in by exact HI.
    unfold c'. rewrite calculateRoots_state. fold x ctx.
    assert (T : forall ir, In ir (ar_reports (alg x)) ->
              exists b, run_filters (rc_filters c) (snd ir) ctx = Ok b).
    { intros [i r] Hin. cbn. destruct (run_filters (rc_filters c) r ctx) as [b|e] eqn:E; [eauto|].
      exfalso. apply run_filters_err in E. destruct E as (k & q & Hk & X).
      assert (Rg : registered h k q).
      { apply (filters_registered p sp). apply In_dget; [apply String.eqb_eq| |exact Hk].
        apply (inv_keys _ (rc_after_inv p sp h)). }
      destruct (FT i r Hin k q Rg) as [b Y]. congruence. }
    rewrite feed_total by exact T. cbn [fst].
    destruct (adds_some ctx (ar_reports (alg x)) c (rc_after_inv p sp h)) as [_ S].
    { exists (i0, r0). split; [exact I0|]. apply acc_accepted, A0. }
    rewrite S. split.
    - intros [([i r] & B1 & B2 & B3)|[X _]].
      + exists i, r. split; [exact B1|]. split; [apply acc_accepted, B2|exact B3].
      + exfalso. apply NP. exact X.
    - intros (i & r & B1 & B2 & B3). left. exists (i, r). split; [exact B1|].
      split; [apply acc_accepted, B2|exact B3].
  Qed.

  Lemma C12_nothing_lemma :
    (forall i r, In (i, r) (ar_reports (alg x)) -> ~ accepted h r ctx) -> c' = c.
  Proof.
    intro N. unfold c'. rewrite calculateRoots_state. fold x ctx.
    destruct (feed_run ctx (ar_reports (alg x)) c) as (l1 & l2 & E0 & E & _).
    rewrite E. apply adds_none. intros [i r] Hin A. apply (N i r).
    - rewrite E0. apply in_or_app. auto.
    - apply acc_accepted, A.
  Qed.

  (** Interruption after [n] reports. *)
  Definition interrupted (n : nat) (a : rctx -> alg_run) : rctx -> alg_run :=
    fun y => mkRun (firstn n (ar_reports (a y))) (Some KeyboardInterrupt).

  Lemma C14_lemma n :
    (forall i r, In (i, r) (ar_reports (alg x)) -> filters_total h r ctx) ->
    let ci := calculateRoots f df dflt (interrupted n alg) reRan imRan prec c in
    snd ci = Ok tt /\
    (forall pr, In pr (reported_pairs iter (fst ci)) ->
       In pr (reported_pairs iter c) \/
       exists i r, In (i, r) (firstn n (ar_reports (alg x))) /\ accepted h r ctx /\
         pr = roundRoot r (search_precision dflt prec)) /\
    (forall i r, In (i, r) (firstn n (ar_reports (alg x))) -> accepted h r ctx ->
       In (roundRoot r (search_precision dflt prec)) (reported_pairs iter (fst ci))) /\
    (search_precision dflt prec = rc_precision c \/ rc_set c = [] ->
       forall pr, In pr (reported_pairs iter (fst ci)) -> In pr (reported_pairs iter c')).
  Proof.
    intros FT ci.
    assert (T : forall l, (forall ir, In ir l -> In ir (ar_reports (alg x))) -> forall ir, In ir l ->
              exists b, run_filters (rc_filters c) (snd ir) ctx = Ok b).
    { intros l Sub [i r] Hin. cbn. destruct (run_filters (rc_filters c) r ctx) as [b|e] eqn:E; [eauto|].
      exfalso. apply run_filters_err in E. destruct E as (k & q & Hk & X).
      assert (Rg : registered h k q).
      { apply (filters_registered p sp). apply In_dget; [apply String.eqb_eq| |exact Hk].
        apply (inv_keys _ (rc_after_inv p sp h)). }
      destruct (FT i r (Sub _ Hin) k q Rg) as [b Y]. congruence. }
    assert (SubN : forall ir, In ir (firstn n (ar_reports (alg x))) -> In ir (ar_reports (alg x))).
    { intros ir Hin. rewrite <- (firstn_skipn n (ar_reports (alg x))). apply in_or_app. auto. }
    assert (Eci : ci = (rc_run (adds ctx (firstn n (ar_reports (alg x)))) c, Ok tt)).
    { unfold ci, calculateRoots. fold x. fold ctx. unfold interrupted at 1. cbn [ar_reports].
      rewrite feed_total by (apply T, SubN). cbn. reflexivity. }
    assert (Ec' : c' = rc_run (adds ctx (ar_reports (alg x))) c).
    { unfold c'. rewrite calculateRoots_state. fold x ctx.
      rewrite feed_total by (apply T; auto). reflexivity. }
    assert (Char : forall l, (exists ir, In ir l /\ acc c ctx (snd ir)) ->
       forall y, In y (rc_set (rc_run (adds ctx l) c)) <->
        (exists ir, In ir l /\ acc c ctx (snd ir) /\ y = roundRoot (snd ir) (search_precision dflt prec)) \/
        (search_precision dflt prec = rc_precision c /\ In y (rc_set c))).
    { intros l D. apply (adds_some ctx l c (rc_after_inv p sp h) D). }
    rewrite Eci; cbn [fst snd]. split; [reflexivity|]. split; [|split].
    - intros pr. rewrite !reported_pairs_in by exact HI.
      destruct (acc_dec_list c ctx (firstn n (ar_reports (alg x)))) as [D|D].
      + rewrite (Char _ D). intros [([i r] & B1 & B2 & B3)|[_ H]]; [right|left; exact H].
        exists i, r. split; [exact B1|]. split; [apply acc_accepted, B2|exact B3].
      + rewrite adds_none by exact D. auto.
    - intros i r Hin HA. rewrite reported_pairs_in by exact HI.
      apply Char.
      + exists (i, r). split; [exact Hin|apply acc_accepted, HA].
      + left. exists (i, r). split; [exact Hin|]. split; [apply acc_accepted, HA|reflexivity].
    - intros HP pr. rewrite !reported_pairs_in by exact HI. rewrite Ec'.
      destruct (acc_dec_list c ctx (firstn n (ar_reports (alg x)))) as [D|D].
      + rewrite (Char _ D). intro H. apply Char.
        * destruct D as (ir & B1 & B2). exists ir. auto.
        * destruct H as [(ir & B1 & B2)|H]; [left; exists ir; auto|auto].
      + rewrite adds_none by exact D. intro H. destruct HP as [HP|HP].
        * apply adds_mono; [apply rc_after_inv|exact HP|exact H].
        * rewrite HP in H. destruct H.
  Qed.
End Serial.

Lemma adds_no_change ctx l : no_filter_change (adds ctx l).
Proof.
  intros o H. unfold adds in H. apply in_map_iff in H. destruct H as (ir & <- & _). exact I.
Qed.

Lemma C13_lemma f df dflt alg reRan imRan prec p sp iter pr :
  iteration_order iter ->
  let c' := fst (calculateRoots f df dflt alg reRan imRan prec
                   (registerDefaultFilters (rc_init p sp))) in
  let P := search_precision dflt prec in
  In pr (reported_pairs iter c') ->
  exists z w, f z = Ok w /\
    (re w * re w + im w * im w < pow10 (- (3)) * pow10 (- (3)))%Q /\
    (Qabs (re z - re (fst pr)) <= (1 # 2) * pow10 (- fst P))%Q /\
    (Qabs (im z - im (fst pr)) <= (1 # 2) * pow10 (- snd P))%Q /\
    (Qmin (fst reRan) (snd reRan) - pow10 (- fst P) <= re z
       <= Qmax (fst reRan) (snd reRan) + 2 * pow10 (- fst P))%Q /\
    (Qmin (fst imRan) (snd imRan) - 3 * pow10 (- snd P) <= im z
       <= Qmax (fst imRan) (snd imRan) + 4 * pow10 (- snd P))%Q.
Proof.
  intros HI c' P H. unfold c' in H. rewrite calculateRoots_state in H.
  set (x := serial_context f df dflt reRan imRan prec) in *.
  destruct (feed_run (toFilterContext x) (ar_reports (alg x)) (registerDefaultFilters (rc_init p sp)))
    as (l1 & l2 & E0 & E & _).
  rewrite E in H. apply C10_default_lemma in H; [|exact HI|apply adds_no_change].
  destruct H as (i & r & ctx & w & Hin & R & F & W & B1 & B2).
  apply in_map_iff in Hin. destruct Hin as ([i' r'] & X & _). cbn in X.
  inversion X; subst i' r' ctx. clear X.
  exists (fst r), w. cbn in F. split; [exact F|]. split; [exact W|].
  subst pr. split; [apply round_dec_error|]. split; [apply round_dec_error|].
  destruct (desym_eq reRan imRan P) as (D1 & D2 & D3 & D4).
  cbn in B1, B2. fold P in B1, B2. rewrite D1, D2 in B1. rewrite D3, D4 in B2. auto.
Qed.

(** ** Job grid *)
Lemma linspace_length a b n : List.length (linspace a b n) = S n.
Proof. unfold linspace. rewrite map_length, seq_length. reflexivity. Qed.

Lemma linspace_nth a b n i d : (i <= n)%nat -> nth i (linspace a b n) d = linspace_pt a b n i.
Proof.
  intro H. unfold linspace. rewrite (nth_indep _ d (linspace_pt a b n 0)).
  - rewrite map_nth, seq_nth by lia. reflexivity.
  - rewrite map_length, seq_length. lia.
Qed.

Definition cell (n : nat) (x : rctx) (i j : nat) : rctx :=
  mkRctx (cx_f x) (cx_df x) (cx_precision x)
    (linspace_pt (fst (cx_reRan x)) (snd (cx_reRan x)) n i,
     linspace_pt (fst (cx_reRan x)) (snd (cx_reRan x)) n (i + 1))
    (linspace_pt (fst (cx_imRan x)) (snd (cx_imRan x)) n j,
     linspace_pt (fst (cx_imRan x)) (snd (cx_imRan x)) n (j + 1)).

Lemma flat_map_seq_map {A B} (f : A -> nat -> nat -> B) (a : A) n m :
  flat_map (fun i => map (fun j => f a i j) (seq 0 m)) (seq 0 n) =
  flat_map (fun i => map (f a i) (seq 0 m)) (seq 0 n).
Proof. reflexivity. Qed.

Lemma createRootJobs_cells n x :
  createRootJobs n x = flat_map (fun i => map (cell n x i) (seq 0 n)) (seq 0 n).
Proof.
  unfold createRootJobs. rewrite !linspace_length. cbn [Nat.sub]. rewrite Nat.sub_0_r.
  rewrite !flat_map_concat_map. f_equal. apply map_ext_in. intros i Hi. apply in_seq in Hi.
  apply map_ext_in. intros j Hj. apply in_seq in Hj.
  unfold cell. rewrite !linspace_nth by lia. reflexivity.
Qed.

Lemma flat_map_const_length {A B} (g : A -> list B) l m :
  (forall a, In a l -> List.length (g a) = m) -> List.length (flat_map g l) = (List.length l * m)%nat.
Proof.
  induction l as [|a l IH]; intro H; cbn; [reflexivity|].
  rewrite app_length, H by (left; auto). rewrite IH; [reflexivity|]. intros; apply H; right; auto.
Qed.

Lemma jobs_length n x : List.length (createRootJobs n x) = (n * n)%nat.
Proof.
  rewrite createRootJobs_cells, (flat_map_const_length _ _ n).
  - rewrite seq_length. reflexivity.
  - intros. rewrite map_length, seq_length. reflexivity.
Qed.

Lemma nth_flat_map_const {A B} (g : A -> list B) l m i j da d :
  (forall a, In a l -> List.length (g a) = m) -> (i < List.length l)%nat -> (j < m)%nat ->
  nth (i * m + j) (flat_map g l) d = nth j (g (nth i l da)) d.
Proof.
  revert i. induction l as [|a l IH]; intros i H Hi Hj; cbn in Hi; [lia|].
  cbn [flat_map]. destruct i as [|i].
  - cbn. rewrite app_nth1; [reflexivity|]. rewrite H by (left; auto). exact Hj.
  - cbn [nth]. rewrite app_nth2; rewrite H by (left; auto); [|cbn; lia].
    replace (S i * m + j - m)%nat with (i * m + j)%nat by (cbn; lia).
    apply IH; [intros; apply H; right; auto|lia|exact Hj].
Qed.

Lemma jobs_nth n x i j d : (i < n)%nat -> (j < n)%nat ->
  nth (i * n + j) (createRootJobs n x) d = cell n x i j.
Proof.
  intros Hi Hj. rewrite createRootJobs_cells.
  rewrite (nth_flat_map_const _ _ n i j O).
  - rewrite seq_nth by exact Hi. cbn.
    rewrite (nth_indep _ d (cell n x i 0)) by (rewrite map_length, seq_length; exact Hj).
    rewrite map_nth, seq_nth by exact Hj. reflexivity.
  - intros. rewrite map_length, seq_length. reflexivity.
  - rewrite seq_length. exact Hi.
  - exact Hj.
Qed.

Lemma linspace_pt_0 a b n : (linspace_pt a b n 0 == a)%Q.
Proof. unfold linspace_pt. cbn. ring. Qed.

Lemma Qn_pos n : (1 <= n)%nat -> (0 < inject_Z (Z.of_nat n))%Q.
Proof. intro H. replace 0%Q with (inject_Z 0) by reflexivity. rewrite <- Zlt_Qlt. lia. Qed.

Lemma linspace_pt_n a b n : (1 <= n)%nat -> (linspace_pt a b n n == b)%Q.
Proof.
  intro H. unfold linspace_pt. pose proof (Qn_pos n H). field. lra.
Qed.

Lemma linspace_pt_step a b n i : (1 <= n)%nat ->
  (linspace_pt a b n (i + 1) == linspace_pt a b n i + (b - a) / inject_Z (Z.of_nat n))%Q.
Proof.
  intro H. unfold linspace_pt. rewrite Nat2Z.inj_add, inject_Z_plus.
  change (inject_Z (Z.of_nat 1)) with 1%Q. ring.
Qed.

Lemma linspace_step_pos a b n : (1 <= n)%nat -> (a < b)%Q ->
  (0 < (b - a) / inject_Z (Z.of_nat n))%Q.
Proof.
  intros H L. apply Qlt_shift_div_l; [apply Qn_pos, H|]. lra.
Qed.

Lemma linspace_pt_mono a b n i k : (1 <= n)%nat -> (a <= b)%Q -> (i <= k)%nat ->
  (linspace_pt a b n i <= linspace_pt a b n k)%Q.
Proof.
  intros H L. induction 1 as [|k Hk IH]; [apply Qle_refl|].
  rewrite <- Nat.add_1_r. rewrite linspace_pt_step by exact H.
  assert (0 <= (b - a) / inject_Z (Z.of_nat n))%Q.
  { apply Qle_shift_div_l; [apply Qn_pos, H|]. lra. }
  lra.
Qed.

Lemma linspace_locate a b n v : (1 <= n)%nat -> (a <= v <= b)%Q ->
  exists i, (i < n)%nat /\ (linspace_pt a b n i <= v <= linspace_pt a b n (i + 1))%Q.
Proof.
  intros Hn [L U].
  assert (G : forall m, (m <= n)%nat -> (v <= linspace_pt a b n m)%Q ->
     m = O \/ exists i, (i < n)%nat /\ (linspace_pt a b n i <= v <= linspace_pt a b n (i + 1))%Q).
  { induction m as [|m IH]; intros Hm Hv; [auto|]. right.
    destruct (Qlt_le_dec (linspace_pt a b n m) v) as [C|C].
    - exists m. split; [lia|]. rewrite Nat.add_1_r. split; [apply Qlt_le_weak, C|exact Hv].
    - destruct (IH ltac:(lia) C) as [->|X]; [|exact X].
      exists O. split; [lia|]. split; [rewrite linspace_pt_0; exact L|exact Hv]. }
  destruct (G n (le_n n)) as [->|X]; [rewrite linspace_pt_n by exact Hn; exact U|lia|exact X].
Qed.

Section Jobs.
  Variables (n : nat) (x : rctx).
  Hypothesis Hn : (1 <= n)%nat.
  Hypothesis Hre : (fst (cx_reRan x) < snd (cx_reRan x))%Q.
  Hypothesis Him : (fst (cx_imRan x) < snd (cx_imRan x))%Q.

  Lemma jobs_in job : In job (createRootJobs n x) -> exists i j, (i < n)%nat /\ (j < n)%nat /\
    job = cell n x i j.
  Proof.
    rewrite createRootJobs_cells, in_flat_map. intros (i & Hi & H). apply in_seq in Hi.
    apply in_map_iff in H. destruct H as (j & <- & Hj). apply in_seq in Hj.
    exists i, j. split; [lia|split; [lia|reflexivity]].
  Qed.

  Lemma cell_in_jobs i j : (i < n)%nat -> (j < n)%nat -> In (cell n x i j) (createRootJobs n x).
  Proof.
    intros Hi Hj. rewrite createRootJobs_cells. apply in_flat_map. exists i.
    split; [apply in_seq; lia|]. apply in_map, in_seq. lia.
  Qed.

  Lemma jobs_cover z : in_rect (cx_reRan x) (cx_imRan x) z ->
    exists job, In job (createRootJobs n x) /\ in_rect (cx_reRan job) (cx_imRan job) z.
  Proof.
    intros [H1 H2].
    destruct (linspace_locate _ _ n _ Hn H1) as (i & Hi & I1).
    destruct (linspace_locate _ _ n _ Hn H2) as (j & Hj & J1).
    exists (cell n x i j). split; [apply cell_in_jobs; assumption|]. split; assumption.
  Qed.

  Lemma jobs_inside job z : In job (createRootJobs n x) ->
    in_rect (cx_reRan job) (cx_imRan job) z -> in_rect (cx_reRan x) (cx_imRan x) z.
  Proof.
    intros H [A B]. apply jobs_in in H. destruct H as (i & j & Hi & Hj & ->). cbn in A, B.
    unfold in_rect.
    pose proof (linspace_pt_mono (fst (cx_reRan x)) (snd (cx_reRan x)) n 0 i Hn ltac:(lra) ltac:(lia)).
    pose proof (linspace_pt_mono (fst (cx_reRan x)) (snd (cx_reRan x)) n (i+1) n Hn ltac:(lra) ltac:(lia)).
    pose proof (linspace_pt_mono (fst (cx_imRan x)) (snd (cx_imRan x)) n 0 j Hn ltac:(lra) ltac:(lia)).
    pose proof (linspace_pt_mono (fst (cx_imRan x)) (snd (cx_imRan x)) n (j+1) n Hn ltac:(lra) ltac:(lia)).
    rewrite linspace_pt_0 in *. rewrite linspace_pt_n in * by exact Hn.
    split; lra.
  Qed.

  Lemma jobs_size job : In job (createRootJobs n x) ->
    (snd (cx_reRan job) - fst (cx_reRan job) == (snd (cx_reRan x) - fst (cx_reRan x)) / inject_Z (Z.of_nat n) /\
     snd (cx_imRan job) - fst (cx_imRan job) == (snd (cx_imRan x) - fst (cx_imRan x)) / inject_Z (Z.of_nat n))%Q /\
    cx_precision job = cx_precision x /\ cx_f job = cx_f x /\ cx_df job = cx_df x.
  Proof.
    intro H. apply jobs_in in H. destruct H as (i & j & Hi & Hj & ->). cbn.
    rewrite !linspace_pt_step by exact Hn. split; [split; ring|auto].
  Qed.

  Lemma strict_same_index a b i k v : (a < b)%Q ->
    (linspace_pt a b n i < v < linspace_pt a b n (i + 1))%Q ->
    (linspace_pt a b n k < v < linspace_pt a b n (k + 1))%Q -> i = k.
  Proof.
    intros L [A1 A2] [B1 B2].
    destruct (Nat.lt_trichotomy i k) as [C|[C|C]]; [|exact C|]; exfalso.
    - pose proof (linspace_pt_mono a b n (i + 1) k Hn ltac:(lra) ltac:(lia)). lra.
    - pose proof (linspace_pt_mono a b n (k + 1) i Hn ltac:(lra) ltac:(lia)). lra.
  Qed.

  Lemma jobs_disjoint u v d z : (u < n * n)%nat -> (v < n * n)%nat ->
    strictly_in_rect (cx_reRan (nth u (createRootJobs n x) d)) (cx_imRan (nth u (createRootJobs n x) d)) z ->
    strictly_in_rect (cx_reRan (nth v (createRootJobs n x) d)) (cx_imRan (nth v (createRootJobs n x) d)) z ->
    u = v.
  Proof.
    intros Hu Hv.
    assert (Du : u = (u / n * n + u mod n)%nat) by (rewrite Nat.mul_comm; apply Nat.div_mod; lia).
    assert (Dv : v = (v / n * n + v mod n)%nat) by (rewrite Nat.mul_comm; apply Nat.div_mod; lia).
    assert (u / n < n)%nat by (apply Nat.div_lt_upper_bound; lia).
    assert (v / n < n)%nat by (apply Nat.div_lt_upper_bound; lia).
    assert (u mod n < n)%nat by (apply Nat.mod_upper_bound; lia).
    assert (v mod n < n)%nat by (apply Nat.mod_upper_bound; lia).
    rewrite Du at 1 2. rewrite Dv at 1 2. rewrite !jobs_nth by assumption. cbn.
    intros [A1 A2] [B1 B2].
    rewrite Du, Dv.
    rewrite (strict_same_index _ _ _ _ _ Hre A1 B1), (strict_same_index _ _ _ _ _ Him A2 B2).
    reflexivity.
  Qed.
End Jobs.

(** ** Schedules *)
Lemma interleaving_perm {A} (ls : list (list A)) q :
  interleaving ls q -> Permutation (List.concat ls) q.
Proof.
  induction 1 as [ls H|ls1 x l ls2 q H IH].
  - replace (List.concat ls) with (@nil A); [constructor|].
    induction ls as [|l ls IHl]; [reflexivity|].
    cbn. rewrite (H l) by (left; auto). apply IHl. intros; apply H; right; auto.
  - rewrite concat_app in *. cbn in *. rewrite <- IH. symmetry. apply Permutation_middle.
Qed.

Section Parallel.
  Variables (f : holoFunc) (dflt : Z * Z) (reRan imRan : Q * Q) (prec : option (Z * Z)).
  Variables (p : option (Z * Z)) (sp : Z * Z) (h : list rc_op).
  Variable iter : list root -> list root.
  Hypothesis HI : iteration_order iter.

  Let ctx := drain_context f dflt reRan imRan prec.
  Let c := rc_after p sp h.

  Lemma drain_prec : fc_precision ctx = match prec with Some q => q | None => dflt end.
  Proof.
    unfold ctx, drain_context, search_precision. cbn. rewrite !Z.add_simpl_r.
    destruct prec as [[]|], dflt; reflexivity.
  Qed.

  Lemma run_total r : filters_total h r ctx -> exists b, run_filters (rc_filters c) r ctx = Ok b.
  Proof.
    intro FT. destruct (run_filters (rc_filters c) r ctx) as [b|e] eqn:E; [eauto|].
    exfalso. apply run_filters_err in E. destruct E as (k & q & Hk & X).
    assert (Rg : registered h k q).
    { apply (filters_registered p sp). apply In_dget; [apply String.eqb_eq| |exact Hk].
      apply (inv_keys _ (rc_after_inv p sp h)). }
    destruct (FT k q Rg) as [b Y]. congruence.
  Qed.

  Lemma drain_char info q :
    (forall r, In r q -> filters_total h r ctx) ->
    drain ctx info q c = (rc_run (adds ctx (map (fun r => (info, r)) q)) c, Ok tt) /\
    forall x, In x (reported_pairs iter (fst (drain ctx info q c))) <->
      (exists r, In r q /\ accepted h r ctx /\ x = roundRoot r (fc_precision ctx)) \/
      (In x (reported_pairs iter c) /\
        (fc_precision ctx = rc_precision c \/ forall r, In r q -> ~ accepted h r ctx)).
  Proof.
    intro FT.
    assert (E : drain ctx info q c = (rc_run (adds ctx (map (fun r => (info, r)) q)) c, Ok tt)).
    { unfold drain. apply feed_total. intros ir Hin. apply in_map_iff in Hin.
      destruct Hin as (r & <- & Hr). cbn. apply run_total, FT, Hr. }
    split; [exact E|]. intro x. rewrite E. cbn [fst]. rewrite !reported_pairs_in by exact HI.
    assert (AA : forall r, acc c ctx r <-> accepted h r ctx) by (intro r; apply accepts_iff).
    destruct (acc_dec_list c ctx (map (fun r => (info, r)) q)) as [D|D].
    - destruct (adds_some ctx _ c (rc_after_inv p sp h) D) as [_ S]. rewrite S. split.
      + intros [(ir & B1 & B2 & B3)|[P X]].
        * apply in_map_iff in B1. destruct B1 as (r & <- & Hr). left. exists r.
          split; [exact Hr|]. split; [apply AA, B2|exact B3].
        * right. auto.
      + intros [(r & B1 & B2 & B3)|[X [P|N]]].
        * left. exists (info, r). split; [apply in_map_iff; eauto|]. split; [apply AA, B2|exact B3].
        * right. auto.
        * exfalso. destruct D as (ir & B1 & B2). apply in_map_iff in B1.
          destruct B1 as (r & <- & Hr). apply (N r Hr), AA, B2.
    - rewrite adds_none by exact D. split.
      + intro X. right. split; [exact X|]. right. intros r Hr A. apply (D (info, r)).
        * apply in_map_iff. eauto.
        * apply AA, A.
      + intros [(r & B1 & B2 & B3)|[X _]]; [|exact X].
        exfalso. apply (D (info, r)); [apply in_map_iff; eauto|apply AA, B2].
  Qed.

  Lemma C16_lemma outs q info :
    pool_behaviour outs (PoolDone q) ->
    (forall o r, In o outs -> In r (fst o) -> filters_total h r ctx) ->
    let res := parallel_calculateRoots f dflt reRan imRan prec info (PoolDone q) c in
    snd res = Ok tt /\
    forall x, In x (reported_pairs iter (fst res)) <->
      (exists o r, In o outs /\ In r (fst o) /\ accepted h r ctx /\
         x = roundRoot r (match prec with Some q => q | None => dflt end)) \/
      (In x (reported_pairs iter c) /\
         ((match prec with Some q => q | None => dflt end) = rc_precision c \/
          forall o r, In o outs -> In r (fst o) -> ~ accepted h r ctx)).
  Proof.
    intros [_ IL] FT. cbn [parallel_calculateRoots]. fold ctx.
    apply interleaving_perm in IL.
    assert (QI : forall r, In r q <-> exists o, In o outs /\ In r (fst o)).
    { intro r. split.
      - intro H. eapply Permutation_in in H; [|symmetry; exact IL].
        apply in_concat in H. destruct H as (l & H1 & H2). apply in_map_iff in H1.
        destruct H1 as (o & <- & H1). eauto.
      - intros (o & H1 & H2). eapply Permutation_in; [exact IL|].
        apply in_concat. exists (fst o). split; [apply in_map, H1|exact H2]. }
    assert (FT' : forall r, In r q -> filters_total h r ctx).
    { intros r Hr. apply QI in Hr. destruct Hr as (o & H1 & H2). eapply FT; eauto. }
    destruct (drain_char info q FT') as [E S]. cbn zeta. split; [rewrite E; reflexivity|].
    intro x. rewrite S. rewrite drain_prec. split.
    - intros [(r & B1 & B2 & B3)|[X [P|N]]].
      + apply QI in B1. destruct B1 as (o & H1 & H2). left. exists o, r. auto.
      + right. auto.
      + right. split; [exact X|]. right. intros o r H1 H2. apply N, QI. eauto.
    - intros [(o & r & H1 & H2 & B2 & B3)|[X [P|N]]].
      + left. exists r. split; [apply QI; eauto|auto].
      + right. auto.
      + right. split; [exact X|]. right. intros r Hr. apply QI in Hr.
        destruct Hr as (o & H1 & H2). eapply N; eauto.
  Qed.

  Lemma Forall2_prefix_in (ls' ls : list (list root)) l r :
    Forall2 prefix ls' ls -> In l ls' -> In r l -> exists l2, In l2 ls /\ In r l2.
  Proof.
    induction 1 as [|a b ls' ls [t ->] F IH]; intros [].
    - subst a. intro Hr. exists (l ++ t). split; [left; auto|apply in_or_app; auto].
    - intro Hr. destruct (IH H Hr) as (l2 & A & B). exists l2. split; [right; auto|auto].
  Qed.

  Lemma C18_lemma outs q qi info :
    pool_behaviour outs (PoolDone q) -> pool_behaviour outs (PoolInterrupted qi) ->
    (forall o r, In o outs -> In r (fst o) -> filters_total h r ctx) ->
    let full := parallel_calculateRoots f dflt reRan imRan prec info (PoolDone q) c in
    let part := parallel_calculateRoots f dflt reRan imRan prec info (PoolInterrupted qi) c in
    snd part = Ok tt /\
    (forall x, In x (reported_pairs iter (fst part)) <->
      (exists r, In r qi /\ accepted h r ctx /\
         x = roundRoot r (match prec with Some q => q | None => dflt end)) \/
      (In x (reported_pairs iter c) /\
         ((match prec with Some q => q | None => dflt end) = rc_precision c \/
          forall r, In r qi -> ~ accepted h r ctx))) /\
    ((match prec with Some q => q | None => dflt end) = rc_precision c \/ rc_set c = [] ->
     forall x, In x (reported_pairs iter (fst part)) -> In x (reported_pairs iter (fst full))).
  Proof.
    intros PB PI FT full part.
    pose proof (C16_lemma outs q info PB FT) as [_ Sf]. fold full in Sf.
    destruct PI as (outs' & F2 & IL). apply interleaving_perm in IL.
    assert (QI : forall r, In r qi -> exists o, In o outs /\ In r (fst o)).
    { intros r H. eapply Permutation_in in H; [|symmetry; exact IL].
      apply in_concat in H. destruct H as (l & H1 & H2).
      destruct (Forall2_prefix_in _ _ _ _ F2 H1 H2) as (l2 & A & B).
      apply in_map_iff in A. destruct A as (o & <- & A). eauto. }
    assert (FT' : forall r, In r qi -> filters_total h r ctx).
    { intros r Hr. apply QI in Hr. destruct Hr as (o & H1 & H2). eapply FT; eauto. }
    destruct (drain_char info qi FT') as [E S].
    assert (Ep : part = drain ctx info qi c) by reflexivity.
    split; [rewrite Ep, E; reflexivity|]. split.
    - intro x. rewrite Ep, S, drain_prec. reflexivity.
    - intros HP x. rewrite Ep, S, Sf. intros [(r & B1 & B2 & B3)|[X _]].
      + left. destruct (QI r B1) as (o & H1 & H2). exists o, r. rewrite drain_prec in B3. auto.
      + right. split; [exact X|]. left. destruct HP as [HP|HP]; [exact HP|].
        exfalso. rewrite reported_pairs_in in X by exact HI. rewrite HP in X. destruct X.
  Qed.
End Parallel.

(** ** Serial against parallel precision *)
Lemma round_dec_two p x :
  (Qabs (round_dec (p + 1) x - round_dec p x) <= (55 # 100) * pow10 (- p))%Q.
Proof.
  pose proof (round_dec_error (p + 1) x) as A. pose proof (round_dec_error p x) as B.
  rewrite pow10_opp_succ in A. pose proof (pow10_pos (- p)).
  apply Qabs_le_iff in A. apply Qabs_le_iff in B. apply Qabs_le_iff. lra.
Qed.

Lemma accepted_serial_parallel h f df dflt reRan imRan prec r :
  filters_ignore_precision h ->
  (accepted h r (toFilterContext (serial_context f df dflt reRan imRan prec)) <->
   accepted h r (drain_context f dflt reRan imRan prec)).
Proof.
  intro FI. unfold accepted, toFilterContext, serial_context, drain_context. cbn.
  split; intros H k q R; rewrite <- (H k q R); apply (FI k q); exact R.
Qed.

Lemma C17_agree_lemma f df dflt alg reRan imRan prec p sp h iter q info :
  iteration_order iter -> filters_ignore_precision h ->
  rc_set (rc_after p sp h) = [] ->
  let x := serial_context f df dflt reRan imRan prec in
  (forall i r, In (i, r) (ar_reports (alg x)) -> filters_total h r (toFilterContext x)) ->
  Permutation (map snd (ar_reports (alg x))) q ->
  let cs := fst (calculateRoots f df dflt alg reRan imRan prec (rc_after p sp h)) in
  let cp := fst (parallel_calculateRoots f dflt reRan imRan prec info (PoolDone q) (rc_after p sp h)) in
  let P := match prec with Some q => q | None => dflt end in
  (forall a, In a (reported_pairs iter cs) -> exists b, In b (reported_pairs iter cp) /\ close_pair P a b) /\
  (forall b, In b (reported_pairs iter cp) -> exists a, In a (reported_pairs iter cs) /\ close_pair P a b).
Proof.
  intros HI FI EM x FT PM cs cp P.
  set (ctxs := toFilterContext x). set (ctxp := drain_context f dflt reRan imRan prec).
  set (c := rc_after p sp h) in *.
  assert (AA : forall r, accepted h r ctxs <-> accepted h r ctxp)
    by (intro r; apply accepted_serial_parallel, FI).
  assert (T : forall ir, In ir (ar_reports (alg x)) ->
              exists b, run_filters (rc_filters c) (snd ir) ctxs = Ok b).
  { intros [i r] Hin. cbn. destruct (run_filters (rc_filters c) r ctxs) as [b|e] eqn:E; [eauto|].
    exfalso. apply run_filters_err in E. destruct E as (k & q' & Hk & X).
    assert (Rg : registered h k q').
    { apply (filters_registered p sp). apply In_dget; [apply String.eqb_eq| |exact Hk].
      apply (inv_keys _ (rc_after_inv p sp h)). }
    destruct (FT i r Hin k q' Rg) as [b Y]. unfold ctxs in X. congruence. }
  assert (Ss : forall y, In y (reported_pairs iter cs) <->
     exists i r, In (i, r) (ar_reports (alg x)) /\ accepted h r ctxs /\
        y = roundRoot r (search_precision dflt prec)).
  { intro y. rewrite reported_pairs_in by exact HI.
    unfold cs. rewrite calculateRoots_state. fold x ctxs.
    rewrite feed_total by exact T. cbn [fst].
    destruct (acc_dec_list c ctxs (ar_reports (alg x))) as [D|D].
    - destruct (adds_some ctxs _ c (rc_after_inv p sp h) D) as [_ S]. rewrite S, EM. split.
      + intros [([i r] & B1 & B2 & B3)|[_ []]]. exists i, r. split; [exact B1|].
        split; [apply (accepts_iff p sp), B2|exact B3].
      + intros (i & r & B1 & B2 & B3). left. exists (i, r). split; [exact B1|].
        split; [apply (accepts_iff p sp), B2|exact B3].
    - rewrite adds_none by exact D. rewrite EM. split; [intros []|].
      intros (i & r & B1 & B2 & B3). apply (D (i, r)); [exact B1|]. apply (accepts_iff p sp), B2. }
  assert (FTq : forall r, In r q -> filters_total h r ctxp).
  { intros r Hr k q' Rg. eapply Permutation_in in Hr; [|symmetry; exact PM].
    apply in_map_iff in Hr. destruct Hr as ([i r'] & X & Hr). cbn in X. subst r'.
    destruct (FT i r Hr k q' Rg) as [b Y]. exists b. rewrite <- Y. apply (FI k q'); exact Rg. }
  destruct (drain_char f dflt reRan imRan prec p sp h iter HI info q FTq) as [E S].
  assert (Sp : forall y, In y (reported_pairs iter cp) <->
     exists r, In r q /\ accepted h r ctxp /\ y = roundRoot r P).
  { intro y. unfold cp. cbn [parallel_calculateRoots]. unfold c. rewrite S.
    rewrite (drain_prec f dflt reRan imRan prec). fold c. rewrite (reported_pairs_in iter c y HI), EM.
    split; [intros [X|[[] _]]; exact X|auto]. }
  assert (SP : search_precision dflt prec = (fst P + 1, snd P + 1)) by reflexivity.
  assert (CL : forall r, close_pair P (roundRoot r (search_precision dflt prec)) (roundRoot r P)).
  { intro r. rewrite SP. split; [reflexivity|]. split; apply round_dec_two. }
  split.
  - intros a Ha. apply Ss in Ha. destruct Ha as (i & r & B1 & B2 & ->).
    exists (roundRoot r P). split; [|apply CL]. apply Sp. exists r. split; [|split; [apply AA, B2|reflexivity]].
    eapply Permutation_in; [exact PM|]. apply in_map_iff. exists (i, r). auto.
  - intros b Hb. apply Sp in Hb. destruct Hb as (r & B1 & B2 & ->).
    eapply Permutation_in in B1; [|symmetry; exact PM].
    apply in_map_iff in B1. destruct B1 as ([i r'] & X & B1). cbn in X. subst r'.
    exists (roundRoot r (search_precision dflt prec)). split; [|apply CL].
    apply Ss. exists i, r. split; [exact B1|]. split; [apply AA, B2|reflexivity].
Qed.

(** ** Sample budget *)
Lemma C19_lemma n cpu : 0 < n -> 0 < cpu ->
  exists m, parallel_numSamplePoints (Some n) cpu = Some m /\
    n + 1 <= cpu * m /\ cpu * m <= n + cpu /\ 1 <= m /\ newton_grid_points (Some m) = m.
Proof.
  intros Hn Hc. exists (n / cpu + 1). unfold parallel_numSamplePoints.
  destruct (Z.eqb_spec n 0) as [E|_]; [lia|].
  rewrite Z.quot_div_nonneg by lia. split; [reflexivity|].
  pose proof (Z.div_mod n cpu ltac:(lia)). pose proof (Z.mod_pos_bound n cpu Hc).
  assert (0 <= n / cpu) by (apply Z.div_pos; lia).
  split; [nia|]. split; [nia|]. split; [lia|].
  unfold newton_grid_points. destruct (Z.eqb_spec (n / cpu + 1) 0); [lia|reflexivity].
Qed.

Lemma jobs_layout n x i j d : (i < n)%nat -> (j < n)%nat ->
    let w := ((snd (cx_reRan x) - fst (cx_reRan x)) / inject_Z (Z.of_nat n))%Q in
    let v := ((snd (cx_imRan x) - fst (cx_imRan x)) / inject_Z (Z.of_nat n))%Q in
    let job := nth (i * n + j) (createRootJobs n x) d in
    (fst (cx_reRan job) == fst (cx_reRan x) + inject_Z (Z.of_nat i) * w /\
     fst (cx_imRan job) == fst (cx_imRan x) + inject_Z (Z.of_nat j) * v)%Q.
Proof.
  intros Hi Hj. cbn zeta. rewrite jobs_nth by assumption. cbn. split; reflexivity.
Qed.

Lemma singleton_perm {A} (l : list A) a : Permutation l [a] -> l = [a].
Proof. intro H. symmetry in H. apply Permutation_length_1_inv in H. exact H. Qed.

Lemma C17_refuted_lemma :
  exists (r : root) (f : holoFunc) (dflt : Z * Z) (reRan imRan : Q * Q),
    forall iter, iteration_order iter ->
    let alg := fun _ => mkRun [(false, r)] None in
    exists a b,
      reported_pairs iter (fst (calculateRoots f None dflt alg reRan imRan None (rc_init None dflt))) = [a] /\
      reported_pairs iter (fst (parallel_calculateRoots f dflt reRan imRan None false
        (PoolDone [r]) (rc_init None dflt))) = [b] /\
      ~ ceq (fst a) (fst b).
Proof.
  exists ((1234 # 1000, 0)%Q, 1), (fun z => Ok z), (2, 2), (0, 2)%Q, (0, 1)%Q.
  intros iter HI alg.
  exists ((617 # 500, 0)%Q, 1), ((123 # 100, 0)%Q, 1).
  split; [|split].
  - apply singleton_perm. rewrite (reported_pairs_perm iter _ HI). vm_compute. reflexivity.
  - apply singleton_perm. rewrite (reported_pairs_perm iter _ HI). vm_compute. reflexivity.
  - intros [E _]. vm_compute in E. discriminate.
Qed.

Lemma predefined_ignore_precision t1 t2 thr1 thr2 :
    filters_ignore_precision [RRegister (predefined t1 thr1) (filterType_value t1);
                              RRegister (predefined t2 thr2) (filterType_value t2)].
Proof.
  intros k q r f rr ir p1 p2 t R.
  assert (Q1 : q = predefined t1 thr1 \/ q = predefined t2 thr2).
  { destruct R as (h1 & h2 & E & _).
    destruct h1 as [|a [|b [|c h1]]]; cbn in E; inversion E; auto. }
  destruct Q1 as [Q1|Q1]; rewrite Q1; [destruct t1|destruct t2]; reflexivity.
Qed.

(** ** The property statements, with the specified rounding *)
Lemma search_context_spec :
  forall f df dflt reRan imRan prec,
    let x := serial_context f df dflt reRan imRan prec in
    let P := one_more (decimals dflt prec) in
    cx_f x = f /\ cx_df x = df /\ cx_precision x = P /\ enlarged reRan imRan P (cx_reRan x) (cx_imRan x) /\
    let y := toFilterContext x in
    fc_f y = f /\ fc_precision y = P /\ enlarged reRan imRan P (fc_reRan y) (fc_imRan y).
Proof.
  intros f df dflt reRan imRan prec x P.
  pose proof (desym_eq reRan imRan P) as D.
  split; [reflexivity|]. split; [reflexivity|]. split; [reflexivity|]. split; [exact D|].
  split; [reflexivity|]. split; [reflexivity|exact D].
Qed.

Lemma drain_context_spec :
  forall f dflt reRan imRan prec,
    let y := drain_context f dflt reRan imRan prec in
    let P := decimals dflt prec in
    fc_f y = f /\ fc_precision y = P /\ enlarged reRan imRan (one_more P) (fc_reRan y) (fc_imRan y).
Proof.
  intros f dflt reRan imRan prec y P. split; [reflexivity|]. split.
  - unfold y, drain_context, search_precision, P, decimals. cbn [fc_precision fst snd].
    destruct (match prec with Some q => q | None => dflt end) as [a b]. cbn [fst snd]. f_equal; lia.
  - exact (desym_eq reRan imRan (one_more P)).
Qed.

Lemma C12_only_spec :
  forall f df dflt alg reRan imRan prec p sp h iter, iteration_order iter ->
    let c := rc_run h (rc_init p sp) in
    let c' := fst (calculateRoots f df dflt alg reRan imRan prec c) in
    let x := serial_context f df dflt reRan imRan prec in
    forall pr, In pr (reported_pairs iter c') ->
      In pr (reported_pairs iter c) \/
      exists i r, In (i, r) (ar_reports (alg x)) /\ accepted h r (toFilterContext x) /\
        rounded (one_more (decimals dflt prec)) r pr.
Proof.
  intros f df dflt alg reRan imRan prec p sp h iter HI c c' x. setoid_rewrite rounded_iff.
  exact (C12_only_new_or_old f df dflt alg reRan imRan prec p sp h iter HI).
Qed.

Lemma C12_restart_spec :
  forall f df dflt alg reRan imRan prec p sp h iter, iteration_order iter ->
    let c := rc_run h (rc_init p sp) in
    let c' := fst (calculateRoots f df dflt alg reRan imRan prec c) in
    let x := serial_context f df dflt reRan imRan prec in
    one_more (decimals dflt prec) <> rc_precision c ->
    (forall i r, In (i, r) (ar_reports (alg x)) -> filters_total h r (toFilterContext x)) ->
    (exists i r, In (i, r) (ar_reports (alg x)) /\ accepted h r (toFilterContext x)) ->
    forall pr, In pr (reported_pairs iter c') <->
      exists i r, In (i, r) (ar_reports (alg x)) /\ accepted h r (toFilterContext x) /\
        rounded (one_more (decimals dflt prec)) r pr.
Proof.
  intros f df dflt alg reRan imRan prec p sp h iter HI c c' x. setoid_rewrite rounded_iff.
  exact (C12_restart_lemma f df dflt alg reRan imRan prec p sp h iter HI).
Qed.

Lemma C14_spec :
  forall f df dflt alg reRan imRan prec p sp h iter, iteration_order iter ->
    forall n : nat,
    let x := serial_context f df dflt reRan imRan prec in
    let ctx := toFilterContext x in
    let c := rc_run h (rc_init p sp) in
    let P := one_more (decimals dflt prec) in
    (forall i r, In (i, r) (ar_reports (alg x)) -> filters_total h r ctx) ->
    let ci := calculateRoots f df dflt
      (fun y => mkRun (firstn n (ar_reports (alg y))) (Some KeyboardInterrupt)) reRan imRan prec c in
    snd ci = Ok tt /\
    (forall pr, In pr (reported_pairs iter (fst ci)) ->
       In pr (reported_pairs iter c) \/
       exists i r, In (i, r) (firstn n (ar_reports (alg x))) /\ accepted h r ctx /\ rounded P r pr) /\
    (forall i r pr, In (i, r) (firstn n (ar_reports (alg x))) -> accepted h r ctx -> rounded P r pr ->
       In pr (reported_pairs iter (fst ci))) /\
    (P = rc_precision c \/ rc_set c = [] ->
       forall pr, In pr (reported_pairs iter (fst ci)) ->
         In pr (reported_pairs iter (fst (calculateRoots f df dflt alg reRan imRan prec c)))).
Proof.
  intros f df dflt alg reRan imRan prec p sp h iter HI n x ctx c P FT ci.
  destruct (C14_lemma f df dflt alg reRan imRan prec p sp h iter HI n FT) as (A & B & C & D).
  split; [exact A|]. split; [setoid_rewrite rounded_iff; exact B|]. split; [|exact D].
  intros i r pr I J K. apply rounded_iff in K. subst pr. exact (C i r I J).
Qed.

Lemma C16_spec :
  forall f dflt reRan imRan prec p sp h iter, iteration_order iter ->
    let ctx := drain_context f dflt reRan imRan prec in
    let c := rc_run h (rc_init p sp) in
    let P := decimals dflt prec in
    forall outs q info, pool_behaviour outs (PoolDone q) ->
    (forall o r, In o outs -> In r (fst o) -> filters_total h r ctx) ->
    let res := parallel_calculateRoots f dflt reRan imRan prec info (PoolDone q) c in
    snd res = Ok tt /\
    forall x, In x (reported_pairs iter (fst res)) <->
      (exists o r, In o outs /\ In r (fst o) /\ accepted h r ctx /\ rounded P r x) \/
      (In x (reported_pairs iter c) /\
         (P = rc_precision c \/
          forall o r, In o outs -> In r (fst o) -> ~ accepted h r ctx)).
Proof.
  intros f dflt reRan imRan prec p sp h iter HI ctx c P outs q info PB FT res.
  setoid_rewrite rounded_iff. exact (C16_lemma f dflt reRan imRan prec p sp h iter HI outs q info PB FT).
Qed.

Lemma C18_spec :
  forall f dflt reRan imRan prec p sp h iter, iteration_order iter ->
    let ctx := drain_context f dflt reRan imRan prec in
    let c := rc_run h (rc_init p sp) in
    let P := decimals dflt prec in
    forall outs q qi info,
    pool_behaviour outs (PoolDone q) -> pool_behaviour outs (PoolInterrupted qi) ->
    (forall o r, In o outs -> In r (fst o) -> filters_total h r ctx) ->
    let full := parallel_calculateRoots f dflt reRan imRan prec info (PoolDone q) c in
    let part := parallel_calculateRoots f dflt reRan imRan prec info (PoolInterrupted qi) c in
    snd part = Ok tt /\
    (forall x, In x (reported_pairs iter (fst part)) <->
      (exists r, In r qi /\ accepted h r ctx /\ rounded P r x) \/
      (In x (reported_pairs iter c) /\
         (P = rc_precision c \/ forall r, In r qi -> ~ accepted h r ctx))) /\
    (P = rc_precision c \/ rc_set c = [] ->
     forall x, In x (reported_pairs iter (fst part)) -> In x (reported_pairs iter (fst full))).
Proof.
  intros f dflt reRan imRan prec p sp h iter HI ctx c P outs q qi info PB PI FT full part.
  setoid_rewrite rounded_iff. exact (C18_lemma f dflt reRan imRan prec p sp h iter HI outs q qi info PB PI FT).
Qed.

(** ** C14: an interrupt that arrives while a filter evaluates the user's function *)
Lemma run_filters_interrupted fs r ctx :
  (forall k q, In (k, q) fs -> q r ctx = Ok true \/ q r ctx = Err KeyboardInterrupt) ->
  (exists k q, In (k, q) fs /\ q r ctx = Err KeyboardInterrupt) ->
  run_filters fs r ctx = Err KeyboardInterrupt.
Proof.
  induction fs as [|[k q] fs IH]; intros A (k0 & q0 & I & X); [destruct I|].
  cbn. destruct (A k q (or_introl eq_refl)) as [E|E]; rewrite E; [|reflexivity].
  apply IH.
  - intros k' q' I'. apply (A k'). right. exact I'.
  - destruct I as [I|I]; [inversion I; subst; congruence|]. exists k0, q0. auto.
Qed.

Lemma feed_app ctx l1 l2 c :
  feed ctx (l1 ++ l2) c =
  match feed ctx l1 c with
  | (c', Ok _) => feed ctx l2 c'
  | (c', Err e) => (c', Err e)
  end.
Proof.
  revert c. induction l1 as [|[i r] l1 IH]; intro c; [reflexivity|].
  cbn [app feed]. destruct (rc_add i r ctx c) as [c' [u|e]]; [apply IH|reflexivity].
Qed.

Lemma C14_check_spec :
  forall f df dflt alg reRan imRan prec p sp h,
    let x := serial_context f df dflt reRan imRan prec in
    let ctx := toFilterContext x in
    let c := rc_run h (rc_init p sp) in
    snd (calculateRoots f df dflt alg reRan imRan prec c) <> Err KeyboardInterrupt /\
    forall before i r after,
      ar_reports (alg x) = before ++ (i, r) :: after ->
      (forall j s, In (j, s) before -> filters_total h s ctx) ->
      (forall k q, registered h k q -> q r ctx = Ok true \/ q r ctx = Err KeyboardInterrupt) ->
      (exists k q, registered h k q /\ q r ctx = Err KeyboardInterrupt) ->
      calculateRoots f df dflt alg reRan imRan prec c =
      calculateRoots f df dflt (fun _ => mkRun before (Some KeyboardInterrupt)) reRan imRan prec c.
Proof.
  intros f df dflt alg reRan imRan prec p sp h x ctx c. split.
  - unfold calculateRoots. destruct (feed _ _ _) as [c' [u|e]]; cbn [snd].
    + destruct (ar_end _) as [[]|]; discriminate.
    + destruct e; discriminate.
  - intros before i r after E FT A X.
    assert (Rg : forall k q, In (k, q) (rc_filters c) -> registered h k q).
    { intros k q I. apply (filters_registered p sp). apply In_dget; [apply String.eqb_eq| |exact I].
      apply (inv_keys _ (rc_after_inv p sp h)). }
    assert (T : forall ir, In ir before -> exists b, run_filters (rc_filters c) (snd ir) ctx = Ok b).
    { intros [j s] Hin. cbn. destruct (run_filters (rc_filters c) s ctx) as [b|e] eqn:E'; [eauto|].
      exfalso. apply run_filters_err in E'. destruct E' as (k & q & Hk & X').
      destruct (FT j s Hin k q (Rg k q Hk)) as [b Y]. congruence. }
    unfold calculateRoots. fold x. fold ctx. cbn [ar_reports ar_end]. rewrite E, feed_app.
    rewrite feed_total by exact T. cbn [feed]. unfold rc_add.
    rewrite adds_filters, run_filters_interrupted; [reflexivity| |].
    + intros k q I. apply (A k), Rg, I.
    + destruct X as (k & q & Hk & X). exists k, q. split; [|exact X].
      eapply dget_In; [apply String.eqb_eq|]. apply filters_registered, Hk.
Qed.
