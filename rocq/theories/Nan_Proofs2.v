(** * Proofs about containers holding numbers that are not finite, continued *)
From Verif Require Import PyBase Rounding_Model Rounding_Spec Rounding_Proofs Container_Model Nan_Model Nan_Spec Nan_Proofs.
Open Scope list_scope.

Lemma xset_add_incl r s x : In x (xset_add r s) -> x = r \/ In x s.
Proof. unfold xset_add. destruct (xset_mem r s); [auto|]. intro K. apply in_app_or in K as [K|[->|[]]]; auto. Qed.
Lemma kept_incl P c x : In x (kept P c) -> In x (xs_set c).
Proof. unfold kept. destruct (prec_eqb _ _); [auto|intros []]. Qed.

(** ** A registered predicate lets nothing else in *)
Lemma guarded (G : xroot -> xctx -> Prop) k p :
  (forall r ctx, p r ctx = Ok true -> G r ctx) ->
  forall h c, dget String.eqb k (xs_filters c) = Some p -> leaves_filter k h ->
  forall s, In s (xs_set (xs_run h c)) ->
    In s (xs_set c) \/ exists i r ctx, In (XAdd i r ctx) h /\ G r ctx /\ xrounded (xc_precision ctx) r s.
Proof.
  intros HG h. induction h as [|o h IH]; intros c K [L1 L2] s Is; [left; exact Is|].
  cbn [xs_run fold_left] in Is. change (In s (xs_set (xs_run h (xs_step c o)))) in Is.
  assert (LF : leaves_filter k h) by (split; [intro X; apply L1; right; exact X|intros q X; apply (L2 q); right; exact X]).
  assert (step : dget String.eqb k (xs_filters (xs_step c o)) = Some p /\
    forall x, In x (xs_set (xs_step c o)) -> In x (xs_set c) \/
      exists i r ctx, In (XAdd i r ctx) (o :: h) /\ G r ctx /\ xrounded (xc_precision ctx) r x).
  { destruct o as [i r ctx|r| |q k'|k']; cbn [xs_step].
    - rewrite xs_add_eq. destruct (xrun_filters _ _ _) as [[]|] eqn:E; cbn [fst xs_set xs_filters]; try (split; [exact K|auto]; fail).
      split; [exact K|]. intros x Ix. apply xset_add_incl in Ix as [->|Ix]; [|left; eapply kept_incl; exact Ix].
      right. exists i, r, ctx. split; [left; reflexivity|]. split; [|apply xrounded_iff; reflexivity].
      apply HG. rewrite xrun_true in E. apply (E k p). exact (dget_In String.eqb String.eqb_eq k p _ K).
    - unfold xs_remove. destruct (xset_mem _ _); cbn [fst xs_set xs_filters]; (split; [exact K|]); [|auto].
      intros x Ix. apply filter_In in Ix as [Ix _]. auto.
    - split; [exact K|]. intros x [].
    - split; [|auto]. cbn [xs_register xs_filters].
      rewrite (dget_dset_other String.eqb String.eqb_eq); [exact K|]. intros ->. apply (L2 q). left. reflexivity.
    - split; [|auto]. cbn [xs_unregister xs_filters].
      rewrite (dget_ddel_other String.eqb String.eqb_eq); [exact K|]. intros ->. apply L1. left. reflexivity. }
  destruct step as [K' H]. destruct (IH _ K' LF s Is) as [Q|(i & r & ctx & A & B & C)].
  - apply H. exact Q.
  - right. exists i, r, ctx. split; [right; exact A|auto].
Qed.

Lemma num_leb_fin a b x : num_leb (Fin a) x = true -> num_leb x (Fin b) = true -> exists q, x = Fin q /\ (a <= q <= b)%Q.
Proof.
  destruct x as [q| | |]; cbn; try discriminate. intros H1 H2. exists q. split; [reflexivity|].
  split; apply Qle_bool_iff; assumption.
Qed.
Lemma in_bounds r ctx : xzero_in_bounds r ctx = Ok true ->
  finite_range (xc_reRan ctx) -> finite_range (xc_imRan ctx) ->
  number_in (xc_reRan ctx) (fst (fst r)) /\ number_in (xc_imRan ctx) (snd (fst r)).
Proof.
  unfold xzero_in_bounds, number_in, finite_range, is_number. intro H. injection H as H.
  rewrite !andb_true_iff in H. destruct H as [[A B] [C D]].
  destruct (xc_reRan ctx) as [a1 b1], (xc_imRan ctx) as [a2 b2]. cbn [fst snd] in *.
  intros [[u1 ->] [v1 ->]] [[u2 ->] [v2 ->]].
  destruct (num_leb_fin _ _ _ A B) as (q1 & E1 & F1), (num_leb_fin _ _ _ C D) as (q2 & E2 & F2).
  split; [exists u1, v1, q1|exists u2, v2, q2]; auto.
Qed.
Lemma xrounded_is_finite P r s : xrounded P r s -> finite r -> finite s.
Proof. intros H F. apply xrounded_iff in H. subst s. apply finite_b_iff. rewrite xround_finite. apply finite_b_iff. exact F. Qed.

Lemma bounds_keep_out k h P fs :
  dget String.eqb k fs = Some xzero_in_bounds -> leaves_filter k h ->
  (forall i r ctx, In (XAdd i r ctx) h -> finite_range (xc_reRan ctx) /\ finite_range (xc_imRan ctx)) ->
  forall s, In s (xs_set (xs_run h (mkXC P [] fs))) ->
    finite s /\ exists i r ctx, In (XAdd i r ctx) h /\ xrounded (xc_precision ctx) r s /\
      number_in (xc_reRan ctx) (fst (fst r)) /\ number_in (xc_imRan ctx) (snd (fst r)).
Proof.
  intros K L R s Is.
  destruct (guarded (fun r ctx => xzero_in_bounds r ctx = Ok true) k _ (fun r ctx H => H) h (mkXC P [] fs) K L s Is) as [[]|(i & r & ctx & A & B & C)].
  destruct (R _ _ _ A) as [R1 R2]. destruct (in_bounds r ctx B R1 R2) as [N1 N2].
  split; [|exists i, r, ctx; auto].
  apply (xrounded_is_finite _ _ _ C). destruct N1 as (?&?&q1&_&E1&_), N2 as (?&?&q2&_&E2&_).
  split; [exists q1|exists q2]; assumption.
Qed.
Lemma value_keeps_out k t h P fs :
  dget String.eqb k fs = Some (xfunc_value_zero t) -> leaves_filter k h ->
  forall s, In s (xs_set (xs_run h (mkXC P [] fs))) ->
    exists i r ctx a b, In (XAdd i r ctx) h /\ xrounded (xc_precision ctx) r s /\
      xc_f ctx (fst r) = Ok (Fin a, Fin b) /\ (a * a + b * b < pow10 (- t) * pow10 (- t))%Q.
Proof.
  intros K L s Is.
  destruct (guarded (fun r ctx => xfunc_value_zero t r ctx = Ok true) k _ (fun r ctx H => H) h (mkXC P [] fs) K L s Is) as [[]|(i & r & ctx & A & B & C)].
  unfold xfunc_value_zero, bind in B. destruct (xc_f ctx (fst r)) as [[[a| | |] [b| | |]]|] eqn:E; try discriminate.
  exists i, r, ctx, a, b. split; [exact A|]. split; [exact C|]. split; [exact E|].
  injection B as B. unfold xabs_lt, abs_lt_pow10 in B. apply Qltb_true in B. exact B.
Qed.

(** ** Undefined numbers *)
Lemma remove_undefined r c : undefined r -> xs_remove r c = (c, false).
Proof.
  intro U. apply undefined_b_iff in U. unfold xs_remove. rewrite xset_mem_undefined; [reflexivity|].
  rewrite xround_undefined. exact U.
Qed.
Lemma kept_same P c : xs_precision c = P -> kept P c = xs_set c.
Proof. intros <-. unfold kept. rewrite (proj2 (prec_eqb_iff _ _) eq_refl). reflexivity. Qed.
Lemma filter_app_b {A} (f : A -> bool) l l' : filter f (l ++ l') = filter f l ++ filter f l'.
Proof. apply filter_app. Qed.
Lemma undefined_add r s : Forall xcanon s -> xcanon r ->
  filter undefined_b (xset_add r s) = filter undefined_b s ++ (if undefined_b r then [r] else []).
Proof.
  intros Cs Cr. unfold xset_add. destruct (xset_mem r s) eqn:M.
  - apply xset_mem_iff in M as [U _]; auto. rewrite U, app_nil_r. reflexivity.
  - rewrite filter_app. cbn [filter]. destruct (undefined_b r); reflexivity.
Qed.
Lemma undefined_remove r s : filter undefined_b (xset_remove r s) = filter undefined_b s.
Proof.
  unfold xset_remove. induction s as [|x s IH]; cbn [filter]; [reflexivity|].
  destruct (xroot_eqb r x) eqn:E; cbn [negb].
  - rewrite IH. destruct (undefined_b x) eqn:U; [|reflexivity]. exfalso.
    destruct r as [[a b] o], x as [[a' b'] o']. unfold xroot_eqb in E. cbn [fst snd] in E. rewrite !andb_true_iff in E.
    destruct E as [[E1 E2] _]. destruct a', b', a, b; cbn in *; discriminate.
  - cbn [filter]. rewrite IH. reflexivity.
Qed.
Lemma undefined_count P h c :
  xs_precision c = P -> xs_filters c = [] -> Forall xcanon (xs_set c) ->
  one_precision P h -> (forall o, In o h -> match o with XAdd _ _ _ | XRemove _ => True | _ => False end) ->
  filter undefined_b (xs_set (xs_run h c)) =
    filter undefined_b (xs_set c) ++ map (xround P) (filter undefined_b (candidates h)).
Proof.
  revert c. induction h as [|o h IH]; intros c EP EF CC OP ON; [cbn; symmetry; apply app_nil_r|].
  change (xs_run (o :: h) c) with (xs_run h (xs_step c o)).
  assert (OP' : one_precision P h) by (intros i r ctx K; apply (OP i r ctx); right; exact K).
  assert (ON' := fun o K => ON o (or_intror K)).
  destruct o as [i r ctx|r| | |]; try (exfalso; exact (ON _ (or_introl eq_refl))).
  - cbn [xs_step]. rewrite xs_add_eq. rewrite EF. cbn [xrun_filters fst].
    rewrite (OP i r ctx (or_introl eq_refl)), (kept_same P c EP).
    rewrite IH; cbn [xs_precision xs_filters xs_set]; auto using xset_add_canon, xround_canon.
    rewrite undefined_add by auto using xround_canon. rewrite xround_undefined.
    cbn [candidates flat_map app filter]. rewrite <- app_assoc. f_equal.
    destruct (undefined_b r); reflexivity.
  - cbn [xs_step candidates flat_map app]. unfold xs_remove. destruct (xset_mem _ _) eqn:M; cbn [fst].
    + rewrite IH; cbn [xs_precision xs_filters xs_set]; auto.
      * rewrite undefined_remove. reflexivity.
      * apply Forall_forall. intros x K. apply filter_In in K as [K _]. rewrite Forall_forall in CC. apply CC, K.
    + rewrite IH; auto.
Qed.

(** ** Everything else is there once *)
Lemma defined_add_NoDup r s : xcanon r -> Forall xcanon s ->
  NoDup (filter (fun x => negb (undefined_b x)) s) -> NoDup (filter (fun x => negb (undefined_b x)) (xset_add r s)).
Proof.
  intros Cr Cs ND. unfold xset_add. destruct (xset_mem r s) eqn:M; [exact ND|]. rewrite filter_app. cbn [filter].
  destruct (undefined_b r) eqn:U; cbn [negb]; [rewrite app_nil_r; exact ND|].
  apply (Permutation_NoDup (Permutation_cons_append _ r)). constructor; [|exact ND].
  intro K. apply filter_In in K as [K _].
  assert (X : xset_mem r s = true) by (apply xset_mem_iff; auto). congruence.
Qed.
Lemma NoDup_filter_gen {A} (f : A -> bool) l : NoDup l -> NoDup (filter f l).
Proof. apply NoDup_filter. Qed.
Lemma filter_comm {A} (f g : A -> bool) l : filter f (filter g l) = filter g (filter f l).
Proof. induction l as [|x l IH]; cbn; [reflexivity|]. destruct (g x) eqn:G, (f x) eqn:F; cbn; rewrite ?F, ?G, IH; reflexivity. Qed.
Lemma defined_once h c : Forall xcanon (xs_set c) -> NoDup (filter (fun x => negb (undefined_b x)) (xs_set c)) ->
  NoDup (filter (fun x => negb (undefined_b x)) (xs_set (xs_run h c))).
Proof.
  revert c. induction h as [|o h IH]; intros c CC ND; [exact ND|].
  change (xs_run (o :: h) c) with (xs_run h (xs_step c o)).
  apply IH; [apply step_canon; exact CC|].
  destruct o as [i r ctx|r| | |]; cbn [xs_step]; try exact ND.
  - rewrite xs_add_eq. destruct (xrun_filters _ _ _) as [[]|]; cbn [fst xs_set]; try exact ND.
    apply defined_add_NoDup; auto using xround_canon, kept_canon.
    unfold kept. destruct (prec_eqb _ _); [exact ND|constructor].
  - unfold xs_remove. destruct (xset_mem _ _); cbn [fst xs_set]; [|exact ND].
    unfold xset_remove. rewrite filter_comm. apply NoDup_filter. exact ND.
  - constructor.
Qed.

(** ** The finite part *)
Lemma eqb_finite r s : finite_b r = true -> xroot_eqb r s = true -> finite_b s = true.
Proof.
  destruct r as [[[] []] o]; cbn; try discriminate. intros _. destruct s as [[x y] o']. unfold xroot_eqb. cbn [fst snd].
  rewrite !andb_true_iff. intros [[A B] _]. destruct x; try discriminate. destruct y; try discriminate. reflexivity.
Qed.
Lemma eqb_nonfinite r s : finite_b r = false -> xroot_eqb r s = true -> finite_b s = false.
Proof.
  destruct r as [[x y] o], s as [[x' y'] o']. unfold xroot_eqb. cbn [fst snd]. rewrite !andb_true_iff.
  intros F [[A B] _]. destruct x, y, x', y'; cbn in *; congruence.
Qed.
Lemma mem_finite r s : finite_b r = true -> xset_mem r (filter finite_b s) = xset_mem r s.
Proof.
  intro F. unfold xset_mem. induction s as [|x s IH]; cbn [filter existsb]; [reflexivity|].
  destruct (finite_b x) eqn:E; cbn [existsb]; rewrite IH; [reflexivity|].
  destruct (xroot_eqb r x) eqn:Q; [|reflexivity]. apply (eqb_finite r x F) in Q. congruence.
Qed.
Lemma add_finite r s : finite_b r = true -> filter finite_b (xset_add r s) = xset_add r (filter finite_b s).
Proof.
  intro F. unfold xset_add. rewrite mem_finite by exact F. destruct (xset_mem r s); [reflexivity|].
  rewrite filter_app. cbn [filter]. rewrite F. reflexivity.
Qed.
Lemma add_nonfinite r s : finite_b r = false -> filter finite_b (xset_add r s) = filter finite_b s.
Proof.
  intro F. unfold xset_add. destruct (xset_mem r s); [reflexivity|]. rewrite filter_app. cbn [filter]. rewrite F, app_nil_r. reflexivity.
Qed.
Lemma remove_finite_b r s : filter finite_b (xset_remove r s) = xset_remove r (filter finite_b s).
Proof. apply filter_comm. Qed.
Lemma remove_nonfinite r s : finite_b r = false -> filter finite_b (xset_remove r s) = filter finite_b s.
Proof.
  intro F. unfold xset_remove. induction s as [|x s IH]; cbn [filter]; [reflexivity|].
  destruct (xroot_eqb r x) eqn:E; cbn [negb].
  - rewrite (eqb_nonfinite r x F E). exact IH.
  - cbn [filter]. rewrite IH. reflexivity.
Qed.
Lemma finite_part P h : one_precision P h -> forall c c',
  xs_precision c = P -> xs_precision c' = P -> xs_filters c' = xs_filters c -> xs_set c' = filter finite_b (xs_set c) ->
  xs_set (xs_run (only_finite h) c') = filter finite_b (xs_set (xs_run h c)).
Proof.
  induction h as [|o h IH]; intros OP c c' EP EP' EF ES; [exact ES|].
  assert (OP' : one_precision P h) by (intros i r ctx K; apply (OP i r ctx); right; exact K).
  change (xs_run (o :: h) c) with (xs_run h (xs_step c o)).
  unfold only_finite. cbn [filter]. fold (only_finite h).
  destruct o as [i r ctx|r| |p k|k].
  - assert (EC := OP i r ctx (or_introl eq_refl)).
    destruct (finite_b r) eqn:F.
    + change (xs_run (XAdd i r ctx :: only_finite h) c') with (xs_run (only_finite h) (xs_step c' (XAdd i r ctx))).
      cbn [xs_step]. rewrite !xs_add_eq, EF, EC, (kept_same P c EP), (kept_same P c' EP').
      destruct (xrun_filters _ _ _) as [[]|]; cbn [fst]; apply IH; auto; cbn [xs_set].
      rewrite ES. symmetry. apply add_finite. rewrite xround_finite. exact F.
    + cbn [xs_step]. rewrite xs_add_eq, EC, (kept_same P c EP).
      destruct (xrun_filters _ _ _) as [[]|]; cbn [fst]; apply IH; auto; cbn [xs_set].
      rewrite ES. symmetry. apply add_nonfinite. rewrite xround_finite. exact F.
  - destruct (finite_b r) eqn:F.
    + change (xs_run (XRemove r :: only_finite h) c') with (xs_run (only_finite h) (xs_step c' (XRemove r))).
      cbn [xs_step]. unfold xs_remove. rewrite EP, EP', ES, mem_finite by (rewrite xround_finite; exact F).
      destruct (xset_mem _ _); cbn [fst]; apply IH; auto; cbn [xs_set]. symmetry. apply remove_finite_b.
    + cbn [xs_step]. unfold xs_remove. rewrite EP. destruct (xset_mem _ _); cbn [fst]; apply IH; auto; cbn [xs_set].
      rewrite ES. symmetry. apply remove_nonfinite. rewrite xround_finite. exact F.
  - change (xs_run (XClear :: only_finite h) c') with (xs_run (only_finite h) (xs_clear c')). cbn [xs_step]. apply IH; auto.
  - change (xs_run (XRegister p k :: only_finite h) c') with (xs_run (only_finite h) (xs_register p k c')). cbn [xs_step].
    apply IH; auto. cbn [xs_register xs_filters]. rewrite EF. reflexivity.
  - change (xs_run (XUnregister k :: only_finite h) c') with (xs_run (only_finite h) (xs_unregister k c')). cbn [xs_step].
    apply IH; auto. cbn [xs_unregister xs_filters]. rewrite EF. reflexivity.
Qed.
