(** * Proofs about containers holding numbers that are not finite *)
From Verif Require Import PyBase Rounding_Model Rounding_Spec Rounding_Proofs Container_Model Nan_Model Nan_Spec.
Open Scope list_scope.
Local Notation dget_other := (@dget_dset_other _ _ String.eqb String.eqb_eq).

(** ** Decidable parts *)
Lemma finite_b_iff r : finite_b r = true <-> finite r.
Proof.
  destruct r as [[x y] o]. unfold finite, is_number. cbn. split.
  - destruct x, y; try discriminate. intros _. split; eexists; reflexivity.
  - intros [[a ->] [b ->]]. reflexivity.
Qed.
Lemma undefined_b_iff r : undefined_b r = true <-> undefined r.
Proof.
  destruct r as [[x y] o]. unfold undefined. cbn.
  destruct x, y; split; intro H; auto; try discriminate; destruct H; discriminate.
Qed.
Lemma xrounded_iff p r s : xrounded p r s <-> s = xround p r.
Proof.
  destruct r as [[x y] o], s as [[x' y'] o']. unfold xrounded, xround. cbn [fst snd]. split.
  - intros (A & B & ->). destruct x, x'; cbn in A; try contradiction; destruct y, y'; cbn in B; try contradiction;
    try (apply rounds_to_iff in A); try (apply rounds_to_iff in B); subst; reflexivity.
  - intro E. injection E as -> -> ->. split; [|split; [|reflexivity]].
    + destruct x; cbn [round_num num_rounded]; try exact I. apply rounds_to_iff; reflexivity.
    + destruct y; cbn [round_num num_rounded]; try exact I. apply rounds_to_iff; reflexivity.
Qed.
Lemma xround_finite p r : finite_b (xround p r) = finite_b r.
Proof. destruct r as [[[] []] o]; reflexivity. Qed.
Lemma xround_undefined p r : undefined_b (xround p r) = undefined_b r.
Proof. destruct r as [[[] []] o]; reflexivity. Qed.

(** ** Values in lowest terms *)
Definition ncanon (x : num) : Prop := match x with Fin q => Qred q = q | _ => True end.
Definition xcanon (r : xroot) : Prop := ncanon (fst (fst r)) /\ ncanon (snd (fst r)).
Lemma round_dec_canon p q : Qred (round_dec p q) = round_dec p q.
Proof. unfold round_dec. apply Qred_complete, Qred_correct. Qed.
Lemma xround_canon p r : xcanon (xround p r).
Proof. destruct r as [[[] []] o]; split; cbn -[round_dec]; auto using round_dec_canon. Qed.
Lemma num_eqb_canon a b : ncanon a -> ncanon b -> (num_eqb a b = true <-> a = b /\ a <> NaN).
Proof.
  intros A B. destruct a, b; cbn in *; split; intros H; try discriminate; try (split; [congruence|discriminate]); try (destruct H; congruence); try reflexivity.
  - apply Qeq_bool_iff in H. apply Qred_complete in H. split; [congruence|discriminate].
  - destruct H as [H _]. injection H as ->. apply Qeq_bool_iff. reflexivity.
Qed.
Lemma xroot_eqb_canon r s : xcanon r -> xcanon s -> (xroot_eqb r s = true <-> r = s /\ undefined_b r = false).
Proof.
  intros [A B] [C D]. unfold xroot_eqb. rewrite !andb_true_iff, !num_eqb_canon, Z.eqb_eq by assumption.
  destruct r as [[x y] o], s as [[x' y'] o']. cbn [fst snd]. split.
  - intros [[[-> H1] [-> H2]] ->]. split; [reflexivity|]. destruct x'; destruct y'; cbn; congruence.
  - intros [E U]. injection E as -> -> ->. cbn in U. destruct x'; destruct y'; try discriminate; repeat split; discriminate.
Qed.
Lemma xset_mem_iff r s : xcanon r -> Forall xcanon s -> (xset_mem r s = true <-> undefined_b r = false /\ In r s).
Proof.
  intros A B. unfold xset_mem. rewrite existsb_exists. split.
  - intros (x & K & E). rewrite Forall_forall in B. apply xroot_eqb_canon in E; auto. destruct E; subst; auto.
  - intros [U K]. exists r. split; [exact K|]. apply xroot_eqb_canon; auto.
Qed.
Lemma xset_mem_undefined r s : undefined_b r = true -> xset_mem r s = false.
Proof.
  intro U. unfold xset_mem. apply not_true_is_false. rewrite existsb_exists. intros ([[x' y'] o'] & _ & E).
  destruct r as [[x y] o]. unfold xroot_eqb in E. cbn [fst snd] in E. rewrite !andb_true_iff in E.
  destruct E as [[E1 E2] _]. destruct x; destruct y; cbn in *; discriminate.
Qed.

(** ** One call *)
Lemma prec_eqb_iff p q : prec_eqb p q = true <-> p = q.
Proof.
  destruct p, q. unfold prec_eqb. cbn [fst snd]. rewrite andb_true_iff, !Z.eqb_eq.
  split; [intros [-> ->]; reflexivity|intro E; injection E; auto].
Qed.
Definition kept (P : Z * Z) (c : xcont) : list xroot := if prec_eqb P (xs_precision c) then xs_set c else [].
Lemma xs_add_eq info r ctx c :
  xs_add info r ctx c =
  match xrun_filters (xs_filters c) r ctx with
  | Err e => (c, Err e)
  | Ok false => (c, Ok tt)
  | Ok true => (mkXC (xc_precision ctx) (xset_add (xround (xc_precision ctx) r) (kept (xc_precision ctx) c)) (xs_filters c), Ok tt)
  end.
Proof.
  unfold xs_add, kept. destruct (xrun_filters _ _ _) as [[]|e]; try reflexivity.
  destruct (prec_eqb (xc_precision ctx) (xs_precision c)) eqn:E; cbn [negb xs_clear xs_precision xs_set xs_filters].
  - apply prec_eqb_iff in E. rewrite <- E. unfold xset_add. destruct (xset_mem _ _) eqn:M.
    + destruct info; cbn [andb]; [|reflexivity]. destruct c as [pp ss ff]. cbn in *. rewrite E. reflexivity.
    + rewrite andb_false_r. reflexivity.
  - unfold xset_add. cbn [xset_mem existsb]. rewrite andb_false_r. reflexivity.
Qed.
Lemma xrun_true fs r ctx : xrun_filters fs r ctx = Ok true <-> forall k p, In (k, p) fs -> p r ctx = Ok true.
Proof.
  induction fs as [|[k p] fs IH]; cbn [xrun_filters].
  - split; [intros _ k p []|reflexivity].
  - split.
    + destruct (p r ctx) as [[]|] eqn:E; try discriminate. intros H k' p' [K|K].
      * injection K as <- <-. exact E.
      * revert k' p' K. apply IH. exact H.
    + intro H. rewrite (H k p (or_introl eq_refl)). apply IH. intros k' p' K. apply (H k' p'). right. exact K.
Qed.
Lemma xset_add_canon r s : xcanon r -> Forall xcanon s -> Forall xcanon (xset_add r s).
Proof. intros A B. unfold xset_add. destruct (xset_mem r s); [exact B|]. apply Forall_app. auto. Qed.
Lemma kept_canon P c : Forall xcanon (xs_set c) -> Forall xcanon (kept P c).
Proof. intro H. unfold kept. destruct (prec_eqb _ _); auto. Qed.
Lemma step_canon c o : Forall xcanon (xs_set c) -> Forall xcanon (xs_set (xs_step c o)).
Proof.
  intro H. destruct o; cbn [xs_step]; try exact H.
  - rewrite xs_add_eq. destruct (xrun_filters _ _ _) as [[]|]; cbn [fst xs_set]; auto using xset_add_canon, xround_canon, kept_canon.
  - unfold xs_remove. destruct (xset_mem _ _); cbn [fst xs_set]; [|exact H].
    apply Forall_forall. intros x K. apply filter_In in K. rewrite Forall_forall in H. apply H, K.
  - constructor.
Qed.
Lemma run_canon h c : Forall xcanon (xs_set c) -> Forall xcanon (xs_set (xs_run h c)).
Proof. revert c. induction h as [|o h IH]; intros c H; cbn; [exact H|]. apply IH, step_canon, H. Qed.

(** ** Finite values: the container of Container_Model.v *)
Lemma fin_eqb r s : xroot_eqb (fin_root r) (fin_root s) = root_eqb r s.
Proof. reflexivity. Qed.
Lemma fin_mem r s : xset_mem (fin_root r) (map fin_root s) = set_mem r s.
Proof. unfold xset_mem, set_mem. induction s as [|x s IH]; cbn [map existsb]; [reflexivity|]. now rewrite fin_eqb, IH. Qed.
Lemma fin_add r s : xset_add (fin_root r) (map fin_root s) = map fin_root (set_add r s).
Proof. unfold xset_add, set_add. rewrite fin_mem. destruct (set_mem r s); [reflexivity|]. now rewrite map_app. Qed.
Lemma fin_remove r s : xset_remove (fin_root r) (map fin_root s) = map fin_root (set_remove r s).
Proof.
  unfold xset_remove, set_remove. induction s as [|x s IH]; cbn [map filter]; [reflexivity|].
  rewrite fin_eqb. destruct (root_eqb r x); cbn [negb map]; now rewrite IH.
Qed.
Lemma fin_round P r : xround P (fin_root r) = fin_root (roundRoot r P).
Proof. reflexivity. Qed.

Definition same_entry (a : string * rootFilter) (b : string * xfilter) : Prop := fst a = fst b /\ same_filter (snd a) (snd b).
Definition same_cont (c : rcont) (xc : xcont) : Prop :=
  xs_precision xc = rc_precision c /\ xs_set xc = map fin_root (rc_set c) /\ Forall2 same_entry (rc_filters c) (xs_filters xc).

Lemma same_filters fs xfs : Forall2 same_entry fs xfs -> forall r ctx xc, same_ctx ctx xc ->
  xrun_filters xfs (fin_root r) xc = run_filters fs r ctx.
Proof.
  induction 1 as [|[k p] [k' xp] fs xfs [_ E] _ IH]; intros r ctx xc SC; [reflexivity|].
  cbn [xrun_filters run_filters]. cbn in E. rewrite (E r ctx xc SC). destruct (p r ctx) as [[]|]; auto.
Qed.
Lemma same_dset fs xfs k p xp : Forall2 same_entry fs xfs -> same_filter p xp ->
  Forall2 same_entry (dset String.eqb k p fs) (dset String.eqb k xp xfs).
Proof.
  intros F E. induction F as [|[k1 p1] [k2 p2] fs xfs [K1 K2] F IH]; cbn [dset].
  - constructor; [split; auto|constructor].
  - cbn in K1. subst k2. destruct (String.eqb k k1).
    + constructor; [split; auto|exact F].
    + constructor; [split; auto|exact IH].
Qed.
Lemma same_ddel fs xfs k : Forall2 same_entry fs xfs ->
  Forall2 same_entry (ddel String.eqb k fs) (ddel String.eqb k xfs).
Proof.
  intros F. induction F as [|[k1 p1] [k2 p2] fs xfs [K1 K2] F IH]; cbn [ddel]; [constructor|].
  cbn in K1. subst k2. destruct (String.eqb k k1); [exact IH|constructor; [split; auto|exact IH]].
Qed.
Lemma same_add i r ctx xctx c xc : same_cont c xc -> same_ctx ctx xctx ->
  same_cont (fst (rc_add i r ctx c)) (fst (xs_add i (fin_root r) xctx xc)) /\
  snd (xs_add i (fin_root r) xctx xc) = snd (rc_add i r ctx c).
Proof.
  intros (A & B & C) SC. pose proof SC as (D & _).
  unfold xs_add, rc_add. rewrite (same_filters _ _ C r ctx xctx SC).
  destruct (run_filters _ _ _) as [[]|e]; cbn [fst snd]; try (split; [split; [|split]|]; auto; fail).
  rewrite D, A. destruct (prec_eqb (fc_precision ctx) (rc_precision c)); cbn [negb].
  - rewrite fin_round, A, B, fin_mem, fin_add. destruct (_ && _); cbn [fst snd]; (split; [split; [|split]|]); auto.
  - cbn [xs_clear rc_clear xs_precision rc_precision xs_set rc_set xs_filters rc_filters].
    rewrite fin_round. change (@nil xroot) with (map fin_root []). rewrite fin_mem, fin_add.
    destruct (_ && _); cbn [fst snd]; (split; [split; [|split]|]); auto.
Qed.
Lemma same_remove r c xc : same_cont c xc ->
  same_cont (fst (rc_remove r c)) (fst (xs_remove (fin_root r) xc)) /\
  snd (xs_remove (fin_root r) xc) = snd (rc_remove r c).
Proof.
  intros (A & B & C). unfold xs_remove, rc_remove. rewrite A, B, fin_round, fin_mem, fin_remove.
  destruct (set_mem _ _); cbn [fst snd]; (split; [split; [|split]|]); auto.
Qed.
Lemma same_step o xo c xc : same_call o xo -> same_cont c xc -> same_cont (rc_step c o) (xs_step xc xo).
Proof.
  intros SC H. destruct SC; cbn [rc_step xs_step].
  - apply same_add; auto.
  - apply same_remove; auto.
  - destruct H as (A & B & C). split; [|split]; auto.
  - destruct H as (A & B & C). split; [|split]; auto. apply same_dset; auto.
  - destruct H as (A & B & C). split; [|split]; auto. apply same_ddel; auto.
Qed.
Lemma same_run h xh c xc : Forall2 same_call h xh -> same_cont c xc -> same_cont (rc_run h c) (xs_run xh xc).
Proof.
  intro F. revert c xc. induction F as [|o xo h xh SC F IH]; intros c xc H; cbn; [exact H|].
  apply IH. apply same_step; auto.
Qed.
Lemma finite_runs P h xh : Forall2 same_call h xh ->
  xs_set (xs_run xh (mkXC P [] [])) = map fin_root (rc_set (rc_run h (mkRC P [] []))) /\
  (forall i r ctx xctx, same_ctx ctx xctx ->
    snd (xs_add i (fin_root r) xctx (xs_run xh (mkXC P [] []))) = snd (rc_add i r ctx (rc_run h (mkRC P [] [])))) /\
  (forall r, snd (xs_remove (fin_root r) (xs_run xh (mkXC P [] []))) = snd (rc_remove r (rc_run h (mkRC P [] [])))).
Proof.
  intro F. assert (H := same_run h xh (mkRC P [] []) (mkXC P [] []) F (conj eq_refl (conj eq_refl (Forall2_nil _)))).
  split; [apply H|]. split; intros; [apply same_add|apply same_remove]; auto.
Qed.
Lemma same_value t : same_filter (func_value_zero t) (xfunc_value_zero t).
Proof.
  intros r ctx xc (_ & _ & _ & D). unfold func_value_zero, xfunc_value_zero. change (fst (fin_root r)) with (fin (fst r)).
  rewrite D. destruct (fc_f ctx (fst r)) as [[a b]|]; reflexivity.
Qed.
Lemma same_bounds : same_filter zero_in_bounds xzero_in_bounds.
Proof.
  intros r ctx xc (_ & B & C & _). unfold zero_in_bounds, xzero_in_bounds. rewrite B, C. reflexivity.
Qed.
