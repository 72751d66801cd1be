From Coq Require Import Permutation.
From Verif Require Import PyBase Rounding_Model Rounding_Spec Rounding_Proofs Container_Model Container_Spec.
Open Scope Z_scope.

(** ** Canonical roots: value equality is Leibniz equality *)
Definition canon (r : root) : Prop :=
  Qred (re (fst r)) = re (fst r) /\ Qred (im (fst r)) = im (fst r).

Lemma roundRoot_canon r p : canon (roundRoot r p).
Proof. split; apply round_dec_Qred. Qed.

Lemma root_eqb_refl r : root_eqb r r = true.
Proof.
  unfold root_eqb. rewrite andb_true_iff. split.
  - apply ceqb_true, ceq_refl.
  - apply Z.eqb_refl.
Qed.

Lemma root_eqb_canon r s : canon r -> canon s -> root_eqb r s = true -> r = s.
Proof.
  intros [A1 A2] [B1 B2]. unfold root_eqb. rewrite andb_true_iff.
  intros [H1 H2]. apply ceqb_true in H1. destruct H1 as [E1 E2].
  apply Z.eqb_eq in H2.
  apply Qred_complete in E1. apply Qred_complete in E2.
  destruct r as [[x y] o], s as [[x' y'] o']. unfold re, im in *. cbn [fst snd] in *.
  congruence.
Qed.

Lemma set_mem_iff r s : canon r -> Forall canon s -> (set_mem r s = true <-> In r s).
Proof.
  intros Hr Hs. unfold set_mem. rewrite existsb_exists. split.
  - intros (x & Hx & E). rewrite Forall_forall in Hs.
    rewrite (root_eqb_canon r x); auto.
  - intro H. exists r. split; [exact H|apply root_eqb_refl].
Qed.

Lemma set_add_in r s x : canon r -> Forall canon s -> (In x (set_add r s) <-> x = r \/ In x s).
Proof.
  intros Hr Hs. unfold set_add. destruct (set_mem r s) eqn:E.
  - apply set_mem_iff in E; auto. split; [auto|]. intros [->|H]; auto.
  - rewrite in_app_iff. cbn. intuition.
Qed.

Lemma set_remove_in r s x : canon r -> Forall canon s ->
  (In x (set_remove r s) <-> In x s /\ x <> r).
Proof.
  intros Hr Hs. unfold set_remove. rewrite filter_In, negb_true_iff.
  rewrite Forall_forall in Hs. split; intros [H1 H2]; split; auto.
  - intros ->. rewrite root_eqb_refl in H2. discriminate.
  - destruct (root_eqb r x) eqn:E; [|reflexivity].
    apply root_eqb_canon in E; auto. congruence.
Qed.

Lemma set_add_canon r s : canon r -> Forall canon s -> Forall canon (set_add r s).
Proof.
  intros Hr Hs. unfold set_add. destruct (set_mem r s); [auto|].
  apply Forall_app; split; auto.
Qed.

Lemma set_remove_sub r s x : In x (set_remove r s) -> In x s.
Proof. unfold set_remove. rewrite filter_In. tauto. Qed.

Lemma set_add_NoDup r s : canon r -> Forall canon s -> NoDup s -> NoDup (set_add r s).
Proof.
  intros Hr Hs ND. unfold set_add. destruct (set_mem r s) eqn:E; [auto|].
  apply NoDup_snoc; [exact ND|]. intro C. apply set_mem_iff in C; auto. congruence.
Qed.

(** ** Invariants of every reachable state *)
Definition rounded_at (p : Z * Z) (r : root) : Prop := roundRoot r p = r.

Record rc_inv (c : rcont) : Prop := {
  inv_nodup : NoDup (rc_set c);
  inv_rounded : Forall (rounded_at (rc_precision c)) (rc_set c);
  inv_keys : NoDup (map fst (rc_filters c))
}.

Lemma rounded_canon p r : rounded_at p r -> canon r.
Proof. unfold rounded_at. intros <-. apply roundRoot_canon. Qed.

Lemma inv_canon c : rc_inv c -> Forall canon (rc_set c).
Proof.
  intros [_ H _]. eapply Forall_impl; [|exact H]. intro. apply rounded_canon.
Qed.

Lemma prec_eqb_eq p q : prec_eqb p q = true <-> p = q.
Proof.
  unfold prec_eqb. rewrite andb_true_iff, !Z.eqb_eq.
  destruct p, q; cbn. split; [intros [-> ->]; reflexivity|intros [= -> ->]; auto].
Qed.

Lemma rc_init_inv p sp : rc_inv (rc_init p sp).
Proof. split; cbn; constructor. Qed.

(** A simpler description of an accepted add. *)
Definition rc_add_core (r : root) (p : Z * Z) (c : rcont) : rcont :=
  mkRC p (set_add (roundRoot r p)
     (if prec_eqb p (rc_precision c) then rc_set c else [])) (rc_filters c).

Lemma rc_add_accept info r ctx c :
  run_filters (rc_filters c) r ctx = Ok true ->
  rc_add info r ctx c = (rc_add_core r (fc_precision ctx) c, Ok tt).
Proof.
  intro H. unfold rc_add. rewrite H. unfold rc_add_core.
  destruct (prec_eqb (fc_precision ctx) (rc_precision c)) eqn:E; cbn.
  - apply prec_eqb_eq in E. rewrite <- E.
    destruct info; cbn; [|reflexivity].
    destruct (set_mem _ _) eqn:M; [|reflexivity].
    unfold set_add. rewrite M. rewrite E. destruct c; reflexivity.
  - rewrite andb_false_r. reflexivity.
Qed.

Lemma rc_add_reject info r ctx c :
  run_filters (rc_filters c) r ctx <> Ok true ->
  fst (rc_add info r ctx c) = c.
Proof.
  intro H. unfold rc_add.
  destruct (run_filters _ _ _) as [[|]|]; [congruence|reflexivity|reflexivity].
Qed.

Lemma run_filters_dec fs r ctx : {run_filters fs r ctx = Ok true} + {run_filters fs r ctx <> Ok true}.
Proof.
  destruct (run_filters fs r ctx) as [[|]|]; [left|right|right]; congruence.
Qed.

Lemma rc_add_core_inv r p c : rc_inv c -> rc_inv (rc_add_core r p c).
Proof.
  intro I. pose proof (inv_canon c I) as HC. destruct I as [ND RD K].
  unfold rc_add_core. destruct (prec_eqb p (rc_precision c)) eqn:E.
  - apply prec_eqb_eq in E. split; cbn; [| |exact K].
    + apply set_add_NoDup; auto using roundRoot_canon.
    + apply Forall_forall. intros x Hx. rewrite set_add_in in Hx; auto using roundRoot_canon.
      destruct Hx as [->|Hx]; [apply roundRoot_idem|].
      subst p. rewrite Forall_forall in RD. auto.
  - split; cbn; [| |exact K].
    + repeat constructor. cbn; tauto.
    + repeat constructor. apply roundRoot_idem.
Qed.

Lemma NoDup_filter {A} (f : A -> bool) l : NoDup l -> NoDup (filter f l).
Proof. apply NoDup_filter. Qed.

Lemma rc_step_inv c o : rc_inv c -> rc_inv (rc_step c o).
Proof.
  intro I. destruct o as [info r ctx|r| |p k|k]; cbn.
  - destruct (run_filters_dec (rc_filters c) r ctx) as [H|H].
    + rewrite rc_add_accept by exact H. cbn. apply rc_add_core_inv, I.
    + rewrite rc_add_reject by exact H. exact I.
  - unfold rc_remove. destruct (set_mem _ _); cbn; [|exact I].
    destruct I as [ND RD K]. split; cbn; [apply NoDup_filter, ND| |exact K].
    rewrite Forall_forall in *. intros x Hx. apply set_remove_sub in Hx. auto.
  - destruct I. split; cbn; auto using NoDup_nil.
  - destruct I as [ND RD K]. split; cbn; auto.
    apply dset_NoDup; [apply String.eqb_eq|exact K].
  - destruct I as [ND RD K]. split; cbn; auto.
    apply ddel_NoDup; [apply String.eqb_eq|exact K].
Qed.

Lemma rc_run_snoc h o c : rc_run (h ++ [o]) c = rc_step (rc_run h c) o.
Proof. unfold rc_run. apply fold_left_snoc. Qed.

Lemma rc_run_app h g c : rc_run (h ++ g) c = rc_run g (rc_run h c).
Proof. unfold rc_run. apply fold_left_app. Qed.

Lemma rc_run_inv h c : rc_inv c -> rc_inv (rc_run h c).
Proof.
  revert c. induction h as [|o h IH]; intros c I; [exact I|].
  cbn. apply IH, rc_step_inv, I.
Qed.

Definition rc_after (p sp : _) (h : list rc_op) : rcont := rc_run h (rc_init p sp).

Lemma rc_after_inv p sp h : rc_inv (rc_after p sp h).
Proof. apply rc_run_inv, rc_init_inv. Qed.

(** ** The observable pairs *)
Lemma combine_map_fst_snd (l : list root) : combine (map fst l) (map snd l) = l.
Proof. induction l as [|[a b] l IH]; cbn; [reflexivity|]. rewrite IH. reflexivity. Qed.

Lemma reported_pairs_eq iter c : reported_pairs iter c = iter (rc_set c).
Proof. apply combine_map_fst_snd. Qed.

Lemma reported_pairs_perm iter c : iteration_order iter ->
  Permutation (reported_pairs iter c) (rc_set c).
Proof. intro H. rewrite reported_pairs_eq. apply H. Qed.

Lemma reported_pairs_in iter c x : iteration_order iter ->
  (In x (reported_pairs iter c) <-> In x (rc_set c)).
Proof.
  intro H. split; apply Permutation_in;
    [|symmetry]; apply reported_pairs_perm, H.
Qed.

(** ** Filters as a function of the history *)
Lemma registered_snoc h o k p :
  registered (h ++ [o]) k p <->
  o = RRegister p k \/
  (registered h k p /\ o <> RUnregister k /\ forall p', o <> RRegister p' k).
Proof.
  split.
  - intros (h1 & h2 & E & N1 & N2).
    destruct h2 as [|z h2'] using rev_ind.
    + apply app_inj_tail in E. left. tauto.
    + clear IHh2'. right.
      rewrite app_comm_cons, app_assoc in E. apply app_inj_tail in E. destruct E as [E1 E2].
      subst z. split; [|split].
      * exists h1, h2'. split; [exact E1|]. split.
        -- intros p' C. apply (N1 p'). apply in_or_app. auto.
        -- intro C. apply N2. apply in_or_app. auto.
      * intro C. apply N2. apply in_or_app. right. left. auto.
      * intros p' C. apply (N1 p'). apply in_or_app. right. left. auto.
  - intros [->|((h1 & h2 & E & N1 & N2) & O1 & O2)].
    + exists h, []. split; [reflexivity|]. split; [intros p' C|intro C]; destruct C.
    + exists h1, (h2 ++ [o]). split; [subst h; rewrite app_comm_cons, app_assoc; reflexivity|].
      split.
      * intros p' C. apply in_app_or in C. destruct C as [C|[C|[]]]; [eapply N1, C|eapply O2, C].
      * intro C. apply in_app_or in C. destruct C as [C|[C|[]]]; [exact (N2 C)|congruence].
Qed.

Lemma registered_nil k p : ~ registered [] k p.
Proof. intros (h1 & h2 & E & _). destruct h1; discriminate. Qed.

Lemma dget_filters_step c o k :
  dget String.eqb k (rc_filters (rc_step c o)) =
  match o with
  | RRegister p k' => if String.eqb k k' then Some p else dget String.eqb k (rc_filters c)
  | RUnregister k' => if String.eqb k k' then None else dget String.eqb k (rc_filters c)
  | _ => dget String.eqb k (rc_filters c)
  end.
Proof.
  destruct o as [info r ctx|r| |p k'|k']; cbn [rc_step].
  - destruct (run_filters_dec (rc_filters c) r ctx) as [H|H].
    + rewrite rc_add_accept by exact H. reflexivity.
    + rewrite rc_add_reject by exact H. reflexivity.
  - unfold rc_remove. destruct (set_mem _ _); reflexivity.
  - reflexivity.
  - cbn. destruct (String.eqb_spec k k') as [->|N].
    + apply dget_dset_same, String.eqb_eq.
    + apply dget_dset_other; [apply String.eqb_eq|congruence].
  - cbn. destruct (String.eqb_spec k k') as [->|N].
    + apply dget_ddel_same; apply String.eqb_eq.
    + apply dget_ddel_other; [apply String.eqb_eq|congruence].
Qed.

Lemma filters_registered p sp h k q :
  dget String.eqb k (rc_filters (rc_after p sp h)) = Some q <-> registered h k q.
Proof.
  induction h as [|o h IH] using rev_ind.
  - cbn. split; [discriminate|]. intro C. exfalso. eapply registered_nil, C.
  - unfold rc_after. rewrite rc_run_snoc, dget_filters_step, registered_snoc.
    fold (rc_after p sp h).
    destruct o as [info r ctx|r| |p' k'|k'].
    1-3: rewrite IH; split;
      [intro H; right; split; [exact H|split; [discriminate|intros p'; discriminate]]
      |intros [C|[H _]]; [discriminate|exact H]].
    + destruct (String.eqb_spec k k') as [->|N].
      * split; [intros [= ->]; left; reflexivity|].
        intros [C|(_ & _ & C)]; [congruence|]. exfalso. apply (C p'). reflexivity.
      * rewrite IH. split.
        -- intro H. right. split; [exact H|]. split; [discriminate|].
           intros p'' C. congruence.
        -- intros [C|[H _]]; [congruence|exact H].
    + destruct (String.eqb_spec k k') as [->|N].
      * split; [discriminate|]. intros [C|(_ & C & _)]; congruence.
      * rewrite IH. split.
        -- intro H. right. split; [exact H|]. split; [congruence|].
           intros p''. discriminate.
        -- intros [C|[H _]]; [discriminate|exact H].
Qed.

Lemma run_filters_true fs r ctx :
  run_filters fs r ctx = Ok true <-> forall k p, In (k, p) fs -> p r ctx = Ok true.
Proof.
  induction fs as [|[k p] fs IH]; cbn.
  - split; [intros _ k p []|reflexivity].
  - split.
    + destruct (p r ctx) as [[|]|] eqn:E; try discriminate.
      intros H k' p' [C|C]; [congruence|]. rewrite IH in H. eapply H, C.
    + intro H. rewrite (H k p) by auto. apply IH. intros k' p' C. apply (H k'). auto.
Qed.

Lemma accepts_iff p sp h r ctx :
  run_filters (rc_filters (rc_after p sp h)) r ctx = Ok true <-> accepted h r ctx.
Proof.
  rewrite run_filters_true. unfold accepted. split; intros H k q Hk.
  - apply (H k). eapply dget_In; [apply String.eqb_eq|]. apply filters_registered, Hk.
  - apply (H k). apply (filters_registered p sp). apply In_dget; [apply String.eqb_eq| |exact Hk].
    apply (inv_keys _ (rc_after_inv p sp h)).
Qed.

Lemma accepted_dec h r ctx : accepted h r ctx \/ ~ accepted h r ctx.
Proof.
  rewrite <- (accepts_iff None (0, 0)).
  destruct (run_filters_dec (rc_filters (rc_after None (0, 0) h)) r ctx); auto.
Qed.

(** ** Precision as a function of the history *)
Definition init_prec (p : option (Z * Z)) (sp : Z * Z) : Z * Z :=
  match p with Some q => q | None => sp end.

Lemma snoc_split {A} (h : list A) o h1 a h2 :
  h ++ [o] = h1 ++ a :: h2 ->
  (h2 = [] /\ o = a /\ h = h1) \/ exists h2', h2 = h2' ++ [o] /\ h = h1 ++ a :: h2'.
Proof.
  intro E. destruct h2 as [|z h2'] using rev_ind.
  - apply app_inj_tail in E. left. intuition.
  - clear IHh2'. right. exists h2'.
    rewrite app_comm_cons, app_assoc in E. apply app_inj_tail in E.
    destruct E as [E ->]. auto.
Qed.

Lemma rc_prec_step_other c o :
  (forall i r ctx, o <> RAdd i r ctx) -> rc_precision (rc_step c o) = rc_precision c.
Proof.
  destruct o as [info r ctx|r| |p k|k]; cbn; intro H; try reflexivity.
  - exfalso. eapply H. reflexivity.
  - unfold rc_remove. destruct (set_mem _ _); reflexivity.
Qed.

Lemma precision_after_keep p0 h o q :
  (forall i r ctx, o = RAdd i r ctx -> ~ accepted h r ctx) ->
  precision_after p0 h q -> precision_after p0 (h ++ [o]) q.
Proof.
  intros N [(h1 & i & r & ctx & h2 & E & A & P & L)|[E L]].
  - left. exists h1, i, r, ctx, (h2 ++ [o]). subst h.
    split; [rewrite <- app_assoc; reflexivity|]. split; [exact A|]. split; [exact P|].
    intros g1 i' r' ctx' g2 G. apply snoc_split in G.
    destruct G as [(G1 & G2 & G3)|(g2' & G1 & G2)].
    + subst. eapply N. reflexivity.
    + eapply L. exact G2.
  - right. split; [exact E|].
    intros g1 i' r' ctx' g2 G. apply snoc_split in G.
    destruct G as [(G1 & G2 & G3)|(g2' & G1 & G2)].
    + subst. eapply N. reflexivity.
    + eapply L. exact G2.
Qed.

Lemma rc_precision_after p sp h :
  precision_after (init_prec p sp) h (rc_precision (rc_after p sp h)).
Proof.
  induction h as [|o h IH] using rev_ind.
  - right. split; [reflexivity|]. intros g1 i r ctx g2 G. destruct g1; discriminate.
  - unfold rc_after. rewrite rc_run_snoc. fold (rc_after p sp h).
    assert (D : (exists i r ctx, o = RAdd i r ctx) \/ (forall i r ctx, o <> RAdd i r ctx)).
    { destruct o; [left; eauto|right|right|right|right]; intros; discriminate. }
    destruct D as [(i & r & ctx & ->)|D].
    + cbn [rc_step].
      destruct (run_filters_dec (rc_filters (rc_after p sp h)) r ctx) as [H|H].
      * rewrite rc_add_accept by exact H. cbn.
        left. exists h, i, r, ctx, []. split; [reflexivity|].
        split; [apply (accepts_iff p sp), H|]. split; [reflexivity|].
        intros g1 i' r' ctx' g2 G. destruct g1; discriminate.
      * rewrite rc_add_reject by exact H.
        apply precision_after_keep; [|exact IH].
        intros i' r' ctx' [= <- <- <-] C. apply H. apply accepts_iff, C.
    + rewrite rc_prec_step_other by exact D.
      apply precision_after_keep; [|exact IH].
      intros i' r' ctx' C. exfalso. eapply D, C.
Qed.

(** ** Exact contents *)
(** [must_report] with the computed rounding. *)
Definition must_report0 (h : list rc_op) (pr : root) : Prop :=
  exists h1 info r ctx h2,
    h = h1 ++ RAdd info r ctx :: h2 /\
    accepted h1 r ctx /\
    roundRoot r (fc_precision ctx) = pr /\
    ~ In RClear h2 /\
    (forall r', In (RRemove r') h2 -> roundRoot r' (fc_precision ctx) <> pr) /\
    (forall g1 info' r' ctx' g2,
       h2 = g1 ++ RAdd info' r' ctx' :: g2 ->
       accepted (h1 ++ RAdd info r ctx :: g1) r' ctx' ->
       fc_precision ctx' = fc_precision ctx).

Lemma must_report_iff h pr : must_report h pr <-> must_report0 h pr.
Proof.
  split; intros (h1 & i & r & ctx & h2 & E & A & R & C & M & P); exists h1, i, r, ctx, h2;
    (split; [exact E|]); (split; [exact A|]).
  - split; [symmetry; apply rounded_iff, R|]. split; [exact C|]. split; [|exact P].
    intros r' Hr' X. apply (M r' Hr'), rounded_iff. symmetry. exact X.
  - split; [apply rounded_iff; symmetry; exact R|]. split; [exact C|]. split; [|exact P].
    intros r' Hr' X. apply (M r' Hr'). symmetry. apply rounded_iff, X.
Qed.

Lemma must_report_snoc_other h o pr :
  (forall i r ctx, o = RAdd i r ctx -> ~ accepted h r ctx) ->
  (must_report0 (h ++ [o]) pr <->
   must_report0 h pr /\ o <> RClear /\
   (forall r', o = RRemove r' -> forall h1 i r ctx h2,
       h = h1 ++ RAdd i r ctx :: h2 -> True) /\
   exists h1 i r ctx h2, h = h1 ++ RAdd i r ctx :: h2 /\ accepted h1 r ctx /\
     roundRoot r (fc_precision ctx) = pr /\ ~ In RClear h2 /\
     (forall r', In (RRemove r') h2 -> roundRoot r' (fc_precision ctx) <> pr) /\
     (forall g1 info' r' ctx' g2, h2 = g1 ++ RAdd info' r' ctx' :: g2 ->
        accepted (h1 ++ RAdd i r ctx :: g1) r' ctx' -> fc_precision ctx' = fc_precision ctx) /\
     (forall r', o = RRemove r' -> roundRoot r' (fc_precision ctx) <> pr)).
Proof.
  intro N. split.
  - intros (h1 & i & r & ctx & h2 & E & A & R & C & M & P).
    apply snoc_split in E. destruct E as [(E1 & E2 & E3)|(h2' & E1 & E2)].
    + subst. exfalso. eapply N; [reflexivity|exact A].
    + subst h2.
      assert (C' : ~ In RClear h2') by (intro X; apply C, in_or_app; auto).
      assert (M' : forall r', In (RRemove r') h2' -> roundRoot r' (fc_precision ctx) <> pr)
        by (intros r' X; apply M, in_or_app; auto).
      assert (P' : forall g1 info' r' ctx' g2, h2' = g1 ++ RAdd info' r' ctx' :: g2 ->
         accepted (h1 ++ RAdd i r ctx :: g1) r' ctx' -> fc_precision ctx' = fc_precision ctx).
      { intros g1 i' r' ctx' g2 G. apply (P g1 i' r' ctx' (g2 ++ [o])). subst h2'.
        rewrite <- app_assoc. reflexivity. }
      split; [exists h1, i, r, ctx, h2'; auto 10|].
      split; [intro X; apply C, in_or_app; right; left; auto|].
      split; [auto|].
      exists h1, i, r, ctx, h2'.
      do 6 (split; [assumption|]).
      intros r' X. apply M, in_or_app. right. left. exact X.
  - intros (_ & NC & _ & h1 & i & r & ctx & h2 & E & A & R & C & M & P & NR).
    exists h1, i, r, ctx, (h2 ++ [o]). subst h.
    split; [rewrite <- app_assoc; reflexivity|].
    split; [exact A|]. split; [exact R|]. split.
    { intro X. apply in_app_or in X. destruct X as [X|[X|[]]]; auto. }
    split.
    { intros r' X. apply in_app_or in X. destruct X as [X|[X|[]]]; auto. }
    intros g1 i' r' ctx' g2 G HA. apply snoc_split in G.
    destruct G as [(G1 & G2 & G3)|(g2' & G1 & G2)].
    + subst. exfalso. eapply N; [reflexivity|exact HA].
    + eapply P; eauto.
Qed.

(** If something must be reported, the precision in force is that of its add. *)
Lemma precision_fun p0 h q q' : precision_after p0 h q -> precision_after p0 h q' -> q = q'.
Proof.
  intros [(h1 & i & r & ctx & h2 & E & A & P & L)|[E L]]
         [(h1' & i' & r' & ctx' & h2' & E' & A' & P' & L')|[E' L']].
  - subst q q'. subst h.
    (* compare positions *)
    assert (Cmp : (h1 = h1' /\ RAdd i r ctx = RAdd i' r' ctx') \/
       (exists g, h2 = g ++ RAdd i' r' ctx' :: h2' /\ h1' = h1 ++ RAdd i r ctx :: g) \/
       (exists g, h2' = g ++ RAdd i r ctx :: h2 /\ h1 = h1' ++ RAdd i' r' ctx' :: g)).
    { clear L L' A A'. revert h1' E'. induction h1 as [|a h1 IH]; intros [|b h1'] E'; cbn in *.
      - left. inversion E'. auto.
      - right. left. inversion E'. subst. exists h1'. auto.
      - right. right. inversion E'. subst. exists h1. auto.
      - inversion E'. subst. destruct (IH h1' H1) as [[-> X]|[(g & X & Y)|(g & X & Y)]].
        + left. auto.
        + right. left. exists g. subst. auto.
        + right. right. exists g. subst. auto. }
    destruct Cmp as [[-> X]|[(g & X & Y)|(g & X & Y)]].
    + inversion X. reflexivity.
    + exfalso. subst. eapply L; [reflexivity|exact A'].
    + exfalso. subst. eapply L'; [reflexivity|exact A].
  - exfalso. eapply L'; [exact E|exact A].
  - exfalso. eapply L; [exact E'|exact A'].
  - congruence.
Qed.

Lemma witness_prec p sp h h1 i r ctx h2 :
  h = h1 ++ RAdd i r ctx :: h2 -> accepted h1 r ctx ->
  (forall g1 info' r' ctx' g2, h2 = g1 ++ RAdd info' r' ctx' :: g2 ->
     accepted (h1 ++ RAdd i r ctx :: g1) r' ctx' -> fc_precision ctx' = fc_precision ctx) ->
  rc_precision (rc_after p sp h) = fc_precision ctx.
Proof.
  intros E A P. apply (precision_fun (init_prec p sp) h); [apply rc_precision_after|].
  subst h. revert P. induction h2 as [|o h2 IH] using rev_ind; intro P.
  - left. exists h1, i, r, ctx, []. repeat split; auto.
    intros g1 i' r' ctx' g2 G. destruct g1; discriminate.
  - assert (IH' : precision_after (init_prec p sp) (h1 ++ RAdd i r ctx :: h2) (fc_precision ctx)).
    { apply IH. intros g1 i' r' ctx' g2 G. apply (P g1 i' r' ctx' (g2 ++ [o])). subst h2.
      rewrite <- app_assoc. reflexivity. }
    assert (D : (exists i' r' ctx', o = RAdd i' r' ctx' /\ accepted (h1 ++ RAdd i r ctx :: h2) r' ctx') \/
       forall i' r' ctx', o = RAdd i' r' ctx' -> ~ accepted (h1 ++ RAdd i r ctx :: h2) r' ctx').
    { destruct o as [i' r' ctx'|r'| |q k|k];
        try (right; intros; discriminate).
      destruct (accepted_dec (h1 ++ RAdd i r ctx :: h2) r' ctx') as [Y|Y].
      - left. eauto 10.
      - right. intros ? ? ? [= <- <- <-]. exact Y. }
    replace (h1 ++ RAdd i r ctx :: h2 ++ [o]) with ((h1 ++ RAdd i r ctx :: h2) ++ [o])
      by (rewrite <- app_assoc; reflexivity).
    destruct D as [(i' & r' & ctx' & -> & A')|N].
    + left. exists (h1 ++ RAdd i r ctx :: h2), i', r', ctx', [].
      split; [reflexivity|]. split; [exact A'|]. split.
      * apply (P h2 i' r' ctx' []); auto.
      * intros g1 i'' r'' ctx'' g2 G. destruct g1; discriminate.
    + apply precision_after_keep; assumption.
Qed.

Lemma contents_exact p sp h pr :
  In pr (rc_set (rc_after p sp h)) <-> must_report0 h pr.
Proof.
  induction h as [|o h IH] using rev_ind.
  - cbn. split; [tauto|]. intros (h1 & i & r & ctx & h2 & E & _). destruct h1; discriminate.
  - unfold rc_after. rewrite rc_run_snoc. fold (rc_after p sp h).
    pose proof (rc_after_inv p sp h) as I. pose proof (inv_canon _ I) as HC.
    set (c := rc_after p sp h) in *.
    destruct o as [info r ctx|r| |q k|k]; cbn [rc_step].
    + (* add *)
      destruct (run_filters_dec (rc_filters c) r ctx) as [H|H].
      * rewrite rc_add_accept by exact H. cbn [fst].
        assert (A : accepted h r ctx) by (apply (accepts_iff p sp), H).
        unfold rc_add_core; cbn [rc_set].
        rewrite set_add_in; [|apply roundRoot_canon|].
        2: { destruct (prec_eqb _ _); [exact HC|constructor]. }
        split.
        -- intros [->|Hin].
           ++ exists h, info, r, ctx, []. repeat split; auto.
              intros g1 i' r' ctx' g2 G. destruct g1; discriminate.
           ++ destruct (prec_eqb (fc_precision ctx) (rc_precision c)) eqn:E; [|destruct Hin].
              apply prec_eqb_eq in E. apply IH in Hin.
              destruct Hin as (h1 & i & r1 & ctx1 & h2 & E1 & A1 & R1 & C1 & M1 & P1).
              assert (PE : rc_precision c = fc_precision ctx1)
                by (eapply witness_prec; eauto).
              exists h1, i, r1, ctx1, (h2 ++ [RAdd info r ctx]).
              split; [subst h; rewrite <- app_assoc; reflexivity|].
              split; [exact A1|]. split; [exact R1|]. split.
              { intro X. apply in_app_or in X. destruct X as [X|[X|[]]]; [auto|discriminate]. }
              split.
              { intros r' X. apply in_app_or in X. destruct X as [X|[X|[]]]; [auto|discriminate]. }
              intros g1 i' r' ctx' g2 G HA. apply snoc_split in G.
              destruct G as [(G1 & G2 & G3)|(g2' & G1 & G2)].
              ** inversion G2; subst. congruence.
              ** eapply P1; eauto.
        -- intros (h1 & i & r1 & ctx1 & h2 & E1 & A1 & R1 & C1 & M1 & P1).
           apply snoc_split in E1. destruct E1 as [(E1 & E2 & E3)|(h2' & E1 & E2)].
           ++ inversion E2; subst. auto.
           ++ right. subst h2.
              assert (P1' : forall g1 info' r' ctx' g2, h2' = g1 ++ RAdd info' r' ctx' :: g2 ->
                 accepted (h1 ++ RAdd i r1 ctx1 :: g1) r' ctx' ->
                 fc_precision ctx' = fc_precision ctx1).
              { intros g1 i' r' ctx' g2 G. apply (P1 g1 i' r' ctx' (g2 ++ [RAdd info r ctx])).
                subst h2'. rewrite <- app_assoc. reflexivity. }
              assert (PE : rc_precision c = fc_precision ctx1)
                by (eapply witness_prec; eauto).
              assert (PE2 : fc_precision ctx = fc_precision ctx1).
              { apply (P1 h2' info r ctx []); [reflexivity|]. rewrite <- E2. exact A. }
              replace (prec_eqb (fc_precision ctx) (rc_precision c)) with true
                by (symmetry; apply prec_eqb_eq; congruence).
              apply IH. exists h1, i, r1, ctx1, h2'.
              split; [exact E2|]. split; [exact A1|]. split; [exact R1|]. split.
              { intro X; apply C1, in_or_app; auto. }
              split; [intros r' X; apply M1, in_or_app; auto|exact P1'].
      * rewrite rc_add_reject by exact H.
        assert (N : ~ accepted h r ctx) by (intro X; apply H, accepts_iff, X).
        rewrite IH. rewrite (must_report_snoc_other h).
        2: { intros i' r' ctx' [= <- <- <-]. exact N. }
        split.
        -- intro Y. split; [exact Y|]. split; [discriminate|]. split; [auto|].
           destruct Y as (h1 & i & r1 & ctx1 & h2 & Y).
           exists h1, i, r1, ctx1, h2. intuition. discriminate.
        -- tauto.
    + (* remove *)
      rewrite (must_report_snoc_other h) by (intros; discriminate).
      assert (Key : In pr (rc_set (fst (rc_remove r c))) <->
                    In pr (rc_set c) /\ pr <> roundRoot r (rc_precision c)).
      { unfold rc_remove. destruct (set_mem _ _) eqn:E; cbn [fst rc_set].
        - apply set_remove_in; [apply roundRoot_canon|exact HC].
        - split; [|tauto]. intro X. split; [exact X|]. intros ->.
          apply set_mem_iff in X; [congruence|apply roundRoot_canon|exact HC]. }
      rewrite Key, IH. split.
      * intros [Y NE]. split; [exact Y|]. split; [discriminate|]. split; [auto|].
        destruct Y as (h1 & i & r1 & ctx1 & h2 & E1 & A1 & R1 & C1 & M1 & P1).
        assert (PE : rc_precision c = fc_precision ctx1) by (eapply witness_prec; eauto).
        exists h1, i, r1, ctx1, h2. do 6 (split; [assumption|]).
        intros r' [= <-] X. rewrite <- PE in X. congruence.
      * intros (Y & _ & _ & h1 & i & r1 & ctx1 & h2 & E1 & A1 & R1 & C1 & M1 & P1 & NR).
        split; [exact Y|].
        assert (PE : rc_precision c = fc_precision ctx1) by (eapply witness_prec; eauto).
        rewrite PE. intro X. eapply NR; [reflexivity|]. symmetry. exact X.
    + (* clear *)
      rewrite (must_report_snoc_other h) by (intros; discriminate).
      cbn. split; [tauto|]. intros (_ & X & _). congruence.
    + rewrite (must_report_snoc_other h) by (intros; discriminate).
      cbn [rc_register rc_set]. rewrite IH. split; [|tauto].
      intro Y. split; [exact Y|]. split; [discriminate|]. split; [auto|].
      destruct Y as (h1 & i & r1 & ctx1 & h2 & Y).
      exists h1, i, r1, ctx1, h2. intuition. discriminate.
    + rewrite (must_report_snoc_other h) by (intros; discriminate).
      cbn [rc_unregister rc_set]. rewrite IH. split; [|tauto].
      intro Y. split; [exact Y|]. split; [discriminate|]. split; [auto|].
      destruct Y as (h1 & i & r1 & ctx1 & h2 & Y).
      exists h1, i, r1, ctx1, h2. intuition. discriminate.
Qed.

(** ** Log level independence *)
Lemma rc_add_level i j r ctx c : rc_add i r ctx c = rc_add j r ctx c.
Proof.
  destruct (run_filters_dec (rc_filters c) r ctx) as [H|H].
  - rewrite !rc_add_accept by exact H. reflexivity.
  - unfold rc_add. destruct (run_filters _ _ _) as [[|]|]; [congruence|reflexivity|reflexivity].
Qed.

Lemma level_independent h g c : same_upto_level h g -> rc_run h c = rc_run g c.
Proof.
  intro S. revert c. induction S as [|i j r ctx h g S IH|o h g S IH]; intro c; [reflexivity| |].
  - cbn. rewrite (rc_add_level i j). apply IH.
  - cbn. apply IH.
Qed.

(** ** Plain container *)
Lemma pc_drain_eq q rs : pc_drain q rs = rs ++ q.
Proof.
  revert rs. induction q as [|r q IH]; intro rs; cbn.
  - rewrite app_nil_r. reflexivity.
  - rewrite IH, <- app_assoc. reflexivity.
Qed.

Definition pc_all (c : pcont) : list root := pc_roots c ++ pc_queue c.

Lemma pc_step_all c o : pc_all (pc_step c o) = pc_all c ++ put_roots [o].
Proof.
  destruct o; unfold pc_all; cbn; rewrite ?pc_drain_eq, ?app_nil_r; try reflexivity;
    rewrite app_assoc; reflexivity.
Qed.

Lemma put_roots_app h g : put_roots (h ++ g) = put_roots h ++ put_roots g.
Proof.
  induction h as [|o h IH]; cbn; [reflexivity|].
  destruct o; cbn; rewrite IH; reflexivity.
Qed.

Lemma pc_run_all q h : pc_all (pc_run h (pc_init q)) = q ++ put_roots h.
Proof.
  induction h as [|o h IH] using rev_ind; cbn.
  - rewrite app_nil_r. reflexivity.
  - unfold pc_run. rewrite fold_left_snoc. fold (pc_run h (pc_init q)).
    rewrite pc_step_all, IH, put_roots_app, app_assoc. reflexivity.
Qed.

Lemma pc_getters q h :
  let c := pc_run h (pc_init q) in
  snd (pc_getRoots c) = map fst (q ++ put_roots h) /\
  snd (pc_getRootOrders c) = map snd (q ++ put_roots h).
Proof.
  cbn. rewrite !pc_drain_eq. fold (pc_all (pc_run h (pc_init q))).
  rewrite pc_run_all. auto.
Qed.

(** ** Lemmas behind the property theorems *)
Lemma C01_lemma p sp h iter pr :
  iteration_order iter ->
  let c := rc_after p sp h in
  In pr (reported_pairs iter c) ->
  multiple_of (fst (rc_precision c)) (re (fst pr)) /\
  multiple_of (snd (rc_precision c)) (im (fst pr)).
Proof.
  intros HI c H. apply reported_pairs_in in H; [|exact HI].
  pose proof (rc_after_inv p sp h) as [_ R _]. fold c in R.
  rewrite Forall_forall in R. specialize (R pr H). unfold rounded_at in R.
  rewrite <- R. split; apply round_dec_multiple.
Qed.

Definition same_pair (a b : root) : Prop := ceq (fst a) (fst b) /\ snd a = snd b.

Lemma same_pair_canon a b : canon a -> canon b -> same_pair a b -> a = b.
Proof.
  intros A B [E O]. apply root_eqb_canon; auto. unfold root_eqb.
  rewrite andb_true_iff, ceqb_true, Z.eqb_eq. auto.
Qed.

Lemma nodup_pairs l : NoDup l -> Forall canon l -> ForallOrdPairs (fun a b => ~ same_pair a b) l.
Proof.
  induction 1 as [|x l N ND IH]; intro C; constructor.
  - inversion C as [|? ? C1 C2]; subst. rewrite Forall_forall in *. intros y Hy E.
    apply same_pair_canon in E; auto. congruence.
  - inversion C; auto.
Qed.

Lemma C02_lemma p sp h iter :
  iteration_order iter ->
  ForallOrdPairs (fun a b => ~ same_pair a b) (reported_pairs iter (rc_after p sp h)).
Proof.
  intro HI. pose proof (rc_after_inv p sp h) as I.
  pose proof (reported_pairs_perm iter (rc_after p sp h) HI) as PM.
  apply nodup_pairs.
  - eapply Permutation_NoDup; [symmetry; exact PM|]. apply inv_nodup, I.
  - eapply Permutation_Forall; [symmetry; exact PM|]. apply inv_canon, I.
Qed.

Definition orders_determined (h : list rc_op) : Prop :=
  forall i r ctx i' r' ctx', In (RAdd i r ctx) h -> In (RAdd i' r' ctx') h ->
    ceq (fst (roundRoot r (fc_precision ctx))) (fst (roundRoot r' (fc_precision ctx'))) ->
    snd r = snd r'.

Lemma must_report_add h pr : must_report0 h pr ->
  exists i r ctx, In (RAdd i r ctx) h /\ pr = roundRoot r (fc_precision ctx).
Proof.
  intros (h1 & i & r & ctx & h2 & -> & _ & <- & _).
  exists i, r, ctx. split; [apply in_elt|reflexivity].
Qed.

Lemma FOP_impl_in {A} (P Q : A -> A -> Prop) l :
  (forall a b, In a l -> In b l -> P a b -> Q a b) ->
  ForallOrdPairs P l -> ForallOrdPairs Q l.
Proof.
  intros H F. induction F as [|a l Fa F IH]; constructor.
  - rewrite Forall_forall in *. intros b Hb. apply H; [left; auto|right; auto|auto].
  - apply IH. intros; apply H; try right; auto.
Qed.

Lemma C02_values_lemma p sp h iter :
  iteration_order iter -> orders_determined h ->
  ForallOrdPairs (fun z w => ~ ceq z w) (rc_getRoots iter (rc_after p sp h)).
Proof.
  intros HI HO. pose proof (C02_lemma p sp h iter HI) as F.
  rewrite reported_pairs_eq in F. unfold rc_getRoots.
  assert (F' : ForallOrdPairs (fun a b : root => ~ ceq (fst a) (fst b))
                (iter (rc_set (rc_after p sp h)))).
  { eapply FOP_impl_in; [|exact F]. intros a b Ha Hb N E. apply N. split; [exact E|].
    assert (Ha' : In a (rc_set (rc_after p sp h))) by (eapply Permutation_in; [apply HI|exact Ha]).
    assert (Hb' : In b (rc_set (rc_after p sp h))) by (eapply Permutation_in; [apply HI|exact Hb]).
    apply contents_exact, must_report_add in Ha'. apply contents_exact, must_report_add in Hb'.
    destruct Ha' as (i & r & ctx & X & ->). destruct Hb' as (i' & r' & ctx' & X' & ->).
    cbn. eapply HO; eauto. }
  clear F. induction F' as [|a l Fa F IH]; cbn; constructor; auto.
  rewrite Forall_map. exact Fa.
Qed.

Lemma C05_reject_lemma p sp h i r ctx :
  ~ accepted h r ctx -> rc_after p sp (h ++ [RAdd i r ctx]) = rc_after p sp h.
Proof.
  intro N. unfold rc_after. rewrite rc_run_snoc. cbn. apply rc_add_reject.
  intro C. apply N. eapply accepts_iff, C.
Qed.

Lemma C05_accept_lemma p sp h i r ctx iter :
  iteration_order iter -> accepted h r ctx ->
  let c := rc_after p sp (h ++ [RAdd i r ctx]) in
  In (roundRoot r (fc_precision ctx)) (reported_pairs iter c) /\
  rc_precision c = fc_precision ctx.
Proof.
  intros HI A c. assert (R : run_filters (rc_filters (rc_after p sp h)) r ctx = Ok true)
    by (apply accepts_iff, A).
  unfold c, rc_after. rewrite rc_run_snoc. cbn [rc_step].
  fold (rc_after p sp h). rewrite rc_add_accept by exact R. cbn [fst]. split; [|reflexivity].
  rewrite reported_pairs_in by exact HI. unfold rc_add_core; cbn [rc_set].
  rewrite set_add_in; [auto|apply roundRoot_canon|].
  destruct (prec_eqb _ _); [apply inv_canon, rc_after_inv|constructor].
Qed.

Lemma run_filters_err fs r ctx e :
  run_filters fs r ctx = Err e -> exists k p, In (k, p) fs /\ p r ctx = Err e.
Proof.
  induction fs as [|[k q] fs IH]; cbn; [discriminate|].
  destruct (q r ctx) as [[|]|e'] eqn:E; intro H; try discriminate.
  - destruct (IH H) as (k' & p' & I & X). eauto 6.
  - inversion H; subst. exists k, q. auto.
Qed.

Lemma C05_raise_lemma p sp h i r ctx e :
  snd (rc_add i r ctx (rc_after p sp h)) = Err e ->
  exists k q, registered h k q /\ q r ctx = Err e.
Proof.
  intro H.
  assert (R : run_filters (rc_filters (rc_after p sp h)) r ctx = Err e).
  { unfold rc_add in H. destruct (run_filters _ _ _) as [[|]|e'];
      [|discriminate|cbn in H; congruence].
    exfalso. revert H. cbn zeta. destruct (_ && _); discriminate. }
  apply run_filters_err in R. destruct R as (k & q & I & X). exists k, q. split; [|exact X].
  apply (filters_registered p sp). apply In_dget; [apply String.eqb_eq| |exact I].
  apply (inv_keys _ (rc_after_inv p sp h)).
Qed.

(** Filters never change during [g]. *)
Definition no_filter_change (g : list rc_op) : Prop :=
  forall o, In o g -> match o with RRegister _ _ => False | RUnregister _ => False | _ => True end.

Lemma registered_app_nochange h g k q :
  no_filter_change g -> (registered (h ++ g) k q <-> registered h k q).
Proof.
  induction g as [|o g IH] using rev_ind; intro N.
  - rewrite app_nil_r. tauto.
  - rewrite app_assoc, registered_snoc, IH.
    + assert (No := N o (in_elt o g [])). split.
      * intros [->|[H _]]; [destruct No|exact H].
      * intro H. right. split; [exact H|].
        destruct o; try destruct No; split; intros; discriminate.
    + intros o' H. apply N, in_or_app. auto.
Qed.

Lemma C05_stable_lemma p sp h g iter pr :
  iteration_order iter ->
  (forall i r ctx, ~ In (RAdd i r ctx) h) -> no_filter_change g ->
  In pr (reported_pairs iter (rc_after p sp (h ++ g))) ->
  exists i r ctx, In (RAdd i r ctx) g /\ pr = roundRoot r (fc_precision ctx) /\
    forall k q, registered (h ++ g) k q -> q r ctx = Ok true.
Proof.
  intros HI NA NF H. rewrite reported_pairs_in in H by exact HI.
  apply contents_exact in H. destruct H as (h1 & i & r & ctx & h2 & E & A & R & _).
  (* the add lies in g *)
  assert (X : exists g1, h1 = h ++ g1 /\ g = g1 ++ RAdd i r ctx :: h2).
  { clear A R NF. revert h1 E. induction h as [|a h IH]; intros h1 E; cbn in E.
    - exists h1. auto.
    - destruct h1 as [|b h1]; cbn in E; inversion E; subst.
      + exfalso. eapply NA. left. reflexivity.
      + destruct (IH (fun i0 r0 c0 C => NA i0 r0 c0 (or_intror C)) h1 H1) as (g1 & -> & ->).
        exists g1. auto. }
  destruct X as (g1 & -> & ->). exists i, r, ctx. split; [apply in_elt|]. split; [auto|].
  intros k q Hq. apply (A k). rewrite registered_app_nochange in Hq by exact NF.
  apply registered_app_nochange; [|exact Hq].
  intros o Ho. apply NF, in_or_app. auto.
Qed.

Lemma C06_lemma p sp h r iter :
  iteration_order iter ->
  let c := rc_after p sp h in
  let k := roundRoot r (rc_precision c) in
  let c' := fst (rc_remove r c) in
  (snd (rc_remove r c) = true <-> In k (reported_pairs iter c)) /\
  (forall x, In x (reported_pairs iter c') <-> In x (reported_pairs iter c) /\ x <> k) /\
  rc_precision c' = rc_precision c /\ rc_filters c' = rc_filters c.
Proof.
  intros HI c k c'. pose proof (inv_canon _ (rc_after_inv p sp h)) as HC. fold c in HC.
  unfold c', rc_remove. fold k.
  destruct (set_mem k (rc_set c)) eqn:E; cbn [fst snd].
  - split; [|split; [|split; reflexivity]].
    + rewrite reported_pairs_in by exact HI. apply set_mem_iff in E;
        [tauto|apply roundRoot_canon|exact HC].
    + intro x. rewrite !reported_pairs_in by exact HI. cbn [rc_set].
      apply set_remove_in; [apply roundRoot_canon|exact HC].
  - assert (NI : ~ In k (rc_set c)).
    { intro X. apply set_mem_iff in X; [congruence|apply roundRoot_canon|exact HC]. }
    split; [|split; [|split; reflexivity]].
    + rewrite reported_pairs_in by exact HI. split; [discriminate|tauto].
    + intro x. rewrite !reported_pairs_in by exact HI. split; [|tauto].
      intro X. split; [exact X|]. intros ->. tauto.
Qed.

Lemma zero_in_bounds_iff r ctx :
  zero_in_bounds r ctx = Ok true <->
  (fst (fc_reRan ctx) <= re (fst r) <= snd (fc_reRan ctx) /\
   fst (fc_imRan ctx) <= im (fst r) <= snd (fc_imRan ctx))%Q.
Proof.
  unfold zero_in_bounds. split.
  - intros [= H]. rewrite !andb_true_iff, !Qle_bool_iff in H. tauto.
  - intros H. f_equal. rewrite !andb_true_iff, !Qle_bool_iff. tauto.
Qed.

Lemma func_value_zero_iff t r ctx :
  func_value_zero t r ctx = Ok true <->
  exists w, fc_f ctx (fst r) = Ok w /\
    (re w * re w + im w * im w < pow10 (- t) * pow10 (- t))%Q.
Proof.
  unfold func_value_zero, bind, abs_lt_pow10. destruct (fc_f ctx (fst r)) as [w|e].
  - split.
    + intros [= H]. exists w. split; [reflexivity|]. apply Qltb_true, H.
    + intros (w' & [= ->] & H). f_equal. apply Qltb_true, H.
  - split; [discriminate|]. intros (w & C & _). discriminate.
Qed.

(** The operation behind [RootFinderInterface.setRootFilter] and
    [ContainerFactory.registerPreDefinedFilter]. *)
Lemma registerPreDefined_op t thr c :
  registerPreDefinedFilter t thr c = rc_step c (RRegister (predefined t thr) (filterType_value t)).
Proof. destruct t; reflexivity. Qed.

Lemma C10_replace_lemma h t thr k q :
  registered (h ++ [RRegister (predefined t thr) (filterType_value t)]) k q <->
  (k = filterType_value t /\ q = predefined t thr) \/
  (k <> filterType_value t /\ registered h k q).
Proof.
  rewrite registered_snoc. split.
  - intros [E|(H & _ & N)].
    + inversion E. auto.
    + right. split; [|exact H]. intros ->. eapply N. reflexivity.
  - intros [[-> ->]|[N H]]; [auto|].
    right. split; [exact H|]. split; [discriminate|]. intros p1 E. injection E as _ E2. apply N. symmetry. exact E2.
Qed.

Lemma C10_default_lemma p sp g iter pr :
  iteration_order iter -> no_filter_change g ->
  In pr (reported_pairs iter (rc_run g (registerDefaultFilters (rc_init p sp)))) ->
  exists i r ctx w, In (RAdd i r ctx) g /\ pr = roundRoot r (fc_precision ctx) /\
    fc_f ctx (fst r) = Ok w /\
    (re w * re w + im w * im w < pow10 (- (3)) * pow10 (- (3)))%Q /\
    (fst (fc_reRan ctx) <= re (fst r) <= snd (fc_reRan ctx))%Q /\
    (fst (fc_imRan ctx) <= im (fst r) <= snd (fc_imRan ctx))%Q.
Proof.
  intros HI NF H.
  pose (h := [RRegister (func_value_zero 3) (filterType_value FUNCTION_VALUE_ZERO);
              RRegister zero_in_bounds (filterType_value ZERO_IN_BOUNDS)]).
  assert (E : rc_run g (registerDefaultFilters (rc_init p sp)) = rc_after p sp (h ++ g)).
  { unfold rc_after. rewrite rc_run_app. reflexivity. }
  rewrite E in H.
  apply C05_stable_lemma in H; [|exact HI| |exact NF].
  - destruct H as (i & r & ctx & I & R & F).
    assert (F1 : func_value_zero 3 r ctx = Ok true).
    { apply (F (filterType_value FUNCTION_VALUE_ZERO)). apply registered_app_nochange; [exact NF|].
      exists [], [RRegister zero_in_bounds (filterType_value ZERO_IN_BOUNDS)].
      split; [reflexivity|]. split; [intros p' [C|[]]; discriminate|intros [C|[]]; discriminate]. }
    assert (F2 : zero_in_bounds r ctx = Ok true).
    { apply (F (filterType_value ZERO_IN_BOUNDS)). apply registered_app_nochange; [exact NF|].
      exists [RRegister (func_value_zero 3) (filterType_value FUNCTION_VALUE_ZERO)], [].
      split; [reflexivity|]. split; [intros p' []|intros []]. }
    apply func_value_zero_iff in F1. apply zero_in_bounds_iff in F2.
    destruct F1 as (w & W1 & W2). exists i, r, ctx, w. tauto.
  - intros i r ctx [C|[C|[]]]; discriminate.
Qed.

Lemma C05_refuted_lemma :
  exists (h : list rc_op) (k : string) (q : rootFilter) (pr : root),
    registered h k q /\ (forall ctx, q pr ctx = Ok false) /\
    forall iter, iteration_order iter ->
      In pr (reported_pairs iter (rc_run h (rc_init None (3, 3)))).
Proof.
  exists [RAdd false ((2, 0)%Q, 1) (mkFctx (fun z => Ok z) (0,0) (0,0) (2, 2)%Z 3%Z)%Q;
          RRegister (fun _ _ => Ok false) "none"], "none"%string, (fun _ _ => Ok false), ((2, 0)%Q, 1).
  split; [|split; [reflexivity|]].
  - exists [RAdd false ((2, 0)%Q, 1) (mkFctx (fun z => Ok z) (0,0) (0,0) (2, 2)%Z 3%Z)%Q], [].
    split; [reflexivity|]. split; [intros p' []|intros []].
  - intros iter HI. apply reported_pairs_in; [exact HI|]. vm_compute. auto.
Qed.

Lemma predefined_threshold t thr r f rr ir pr th th' :
  predefined t thr r (mkFctx f rr ir pr th) = predefined t thr r (mkFctx f rr ir pr th').
Proof. destruct t; reflexivity. Qed.

Lemma plain_parallel q h : let c := pc_run h (pc_init q) in
    combine (snd (pc_getRoots c)) (snd (pc_getRootOrders (fst (pc_getRoots c)))) = q ++ put_roots h.
Proof.
  cbn zeta. destruct (pc_getters q h) as [E1 _]. rewrite E1.
  cbn. rewrite !pc_drain_eq. fold (pc_all (pc_run h (pc_init q))).
  rewrite pc_run_all. apply combine_map_fst_snd.
Qed.

(** ** The property statements, with the specified rounding *)
Lemma contents_spec p sp h pr : In pr (rc_set (rc_after p sp h)) <-> must_report h pr.
Proof. rewrite must_report_iff. apply contents_exact. Qed.

Lemma C02_values_spec :
  forall p sp h iter, iteration_order iter ->
    (forall i r ctx s i' r' ctx' s', In (RAdd i r ctx) h -> In (RAdd i' r' ctx') h ->
       rounded (fc_precision ctx) r s -> rounded (fc_precision ctx') r' s' ->
       ceq (fst s) (fst s') -> snd r = snd r') ->
    ForallOrdPairs (fun z w => ~ ceq z w) (rc_getRoots iter (rc_run h (rc_init p sp))).
Proof.
  intros p sp h iter HI H. apply (C02_values_lemma p sp h iter HI).
  intros i r ctx i' r' ctx' A B E.
  exact (H i r ctx _ i' r' ctx' _ A B (rounded_self _ _) (rounded_self _ _) E).
Qed.

Lemma C05_accept_spec :
  forall p sp h i r ctx iter s, iteration_order iter -> accepted h r ctx ->
    rounded (fc_precision ctx) r s ->
    let c := rc_run (h ++ [RAdd i r ctx]) (rc_init p sp) in
    In s (reported_pairs iter c) /\ rc_precision c = fc_precision ctx.
Proof.
  intros p sp h i r ctx iter s HI A R. apply rounded_iff in R. subst s.
  exact (C05_accept_lemma p sp h i r ctx iter HI A).
Qed.

Lemma C05_stable_spec :
  forall p sp h g iter pr, iteration_order iter ->
    (forall i r ctx, ~ In (RAdd i r ctx) h) ->
    (forall o, In o g -> match o with RRegister _ _ => False | RUnregister _ => False | _ => True end) ->
    In pr (reported_pairs iter (rc_run (h ++ g) (rc_init p sp))) ->
    exists i r ctx, In (RAdd i r ctx) g /\ rounded (fc_precision ctx) r pr /\
      forall k q, registered (h ++ g) k q -> q r ctx = Ok true.
Proof.
  intros p sp h g iter pr HI A B C.
  destruct (C05_stable_lemma p sp h g iter pr HI A B C) as (i & r & ctx & I & R & F).
  exists i, r, ctx. split; [exact I|]. split; [apply rounded_iff, R|exact F].
Qed.

Lemma C06_spec :
  forall p sp h r iter k, iteration_order iter ->
    let c := rc_run h (rc_init p sp) in
    rounded (rc_precision c) r k ->
    let c' := fst (rc_remove r c) in
    (snd (rc_remove r c) = true <-> In k (reported_pairs iter c)) /\
    (forall x, In x (reported_pairs iter c') <-> In x (reported_pairs iter c) /\ x <> k) /\
    rc_precision c' = rc_precision c /\ rc_filters c' = rc_filters c.
Proof.
  intros p sp h r iter k HI c R. apply rounded_iff in R. subst k.
  exact (C06_lemma p sp h r iter HI).
Qed.

Lemma C10_default_spec :
  forall p sp g iter pr, iteration_order iter ->
    (forall o, In o g -> match o with RRegister _ _ => False | RUnregister _ => False | _ => True end) ->
    In pr (reported_pairs iter (rc_run g (registerDefaultFilters (rc_init p sp)))) ->
    exists i r ctx w, In (RAdd i r ctx) g /\ rounded (fc_precision ctx) r pr /\
      fc_f ctx (fst r) = Ok w /\
      (re w * re w + im w * im w < pow10 (- (3)) * pow10 (- (3)))%Q /\
      (fst (fc_reRan ctx) <= re (fst r) <= snd (fc_reRan ctx))%Q /\
      (fst (fc_imRan ctx) <= im (fst r) <= snd (fc_imRan ctx))%Q.
Proof.
  intros p sp g iter pr HI A B.
  destruct (C10_default_lemma p sp g iter pr HI A B) as (i & r & ctx & w & I & R & F).
  exists i, r, ctx, w. split; [exact I|]. split; [apply rounded_iff, R|exact F].
Qed.

Lemma C10_setRootFilter_spec :
  forall p sp h t thr,
    registerPreDefinedFilter t thr (rc_run h (rc_init p sp)) =
      rc_run (h ++ [RRegister (predefined t thr) (filterType_value t)]) (rc_init p sp) /\
    (forall t', filterType_value t' = filterType_value t -> t' = t) /\
    forall k q,
    registered (h ++ [RRegister (predefined t thr) (filterType_value t)]) k q <->
    (k = filterType_value t /\ q = predefined t thr) \/
    (k <> filterType_value t /\ registered h k q).
Proof.
  intros p sp h t thr. split; [|split].
  - unfold rc_run. rewrite fold_left_app. apply registerPreDefined_op.
  - intros t' H. destruct t, t'; first [reflexivity|discriminate H].
  - intros k q. apply C10_replace_lemma.
Qed.
