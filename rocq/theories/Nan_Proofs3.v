(** * Any order of arrival, and Newton on a grid *)
From Verif Require Import PyBase Rounding_Model Rounding_Spec Rounding_Proofs Container_Model Nan_Model Nan_Spec Nan_Proofs Nan_Proofs2.
Open Scope list_scope.

Lemma answers fs ctx r : filters_answer fs ctx -> exists b, xrun_filters fs r ctx = Ok b.
Proof.
  intro T. induction fs as [|[k p] fs IH]; cbn [xrun_filters]; [exists true; reflexivity|].
  destruct (T k p r (or_introl eq_refl)) as [[] ->]; [|exists false; reflexivity].
  apply IH. intros k' p' r' K. apply (T k' p' r'). right. exact K.
Qed.
Definition acc (fs : list (string * xfilter)) (ctx : xctx) (r : xroot) : bool :=
  match xrun_filters fs r ctx with Ok b => b | Err _ => false end.
Definition offered (fs : list (string * xfilter)) (ctx : xctx) (l : list (bool * xroot)) : list xroot :=
  map (xround (xc_precision ctx)) (filter (acc fs ctx) (map snd l)).

Lemma offered_cons fs ctx i r l :
  offered fs ctx ((i, r) :: l) = (if acc fs ctx r then [xround (xc_precision ctx) r] else []) ++ offered fs ctx l.
Proof. unfold offered. cbn [map filter snd]. destruct (acc fs ctx r); reflexivity. Qed.
Lemma additions_inv fs ctx l : filters_answer fs ctx -> forall c,
  xs_filters c = fs -> kept (xc_precision ctx) c = xs_set c -> Forall xcanon (xs_set c) ->
  let c' := xs_run (additions ctx l) c in
  filter undefined_b (xs_set c') = filter undefined_b (xs_set c) ++ filter undefined_b (offered fs ctx l) /\
  (forall s, undefined_b s = false -> In s (xs_set c') <-> In s (xs_set c) \/ In s (offered fs ctx l)) /\
  (offered fs ctx l <> [] -> xs_precision c' = xc_precision ctx).
Proof.
  intro T. induction l as [|[i r] l IH]; intros c EF EK CC c'.
  - subst c'. unfold offered. cbn. rewrite app_nil_r. split; [reflexivity|]. split; [tauto|intro H; now destruct H].
  - subst c'. change (xs_run (additions ctx ((i, r) :: l)) c) with (xs_run (additions ctx l) (xs_step c (XAdd i r ctx))).
    cbn [xs_step]. rewrite xs_add_eq, EF.
    destruct (answers fs ctx r T) as [b E]. rewrite offered_cons. unfold acc. rewrite E.
    destruct b; cbn [fst app].
    + rewrite EK. set (c1 := mkXC _ _ _).
      destruct (IH c1 eq_refl (kept_same _ c1 eq_refl) (xset_add_canon _ _ (xround_canon _ _) CC)) as (A & B & C).
      split; [|split].
      * rewrite A. cbn [xs_set c1]. rewrite undefined_add by auto using xround_canon. rewrite <- app_assoc. f_equal.
        cbn [filter]. destruct (undefined_b _); reflexivity.
      * intros s U. rewrite (B s U). cbn [xs_set c1]. cbn [In].
        assert (X : In s (xset_add (xround (xc_precision ctx) r) (xs_set c)) <-> In s (xs_set c) \/ xround (xc_precision ctx) r = s).
        { unfold xset_add. destruct (xset_mem _ _) eqn:M.
          - apply xset_mem_iff in M as [_ M]; auto using xround_canon. split; [auto|]. intros [H|<-]; auto.
          - rewrite in_app_iff. cbn. tauto. }
        rewrite X. tauto.
      * intros _. destruct (offered fs ctx l) as [|y ys] eqn:O; [|apply C; discriminate].
        clear - O E T.
        assert (G : forall c0, xs_filters c0 = fs -> xs_precision (xs_run (additions ctx l) c0) = xs_precision c0).
        { revert O. induction l as [|[j q] l IH]; intros O c0 F0; [reflexivity|].
          change (xs_run (additions ctx ((j, q) :: l)) c0) with (xs_run (additions ctx l) (xs_step c0 (XAdd j q ctx))).
          rewrite offered_cons in O. unfold acc in O. cbn [xs_step]. rewrite xs_add_eq, F0.
          destruct (answers fs ctx q T) as [b' E']. rewrite E' in O |- *. destruct b'; [discriminate O|]. cbn [fst].
          apply IH; assumption. }
        rewrite G; reflexivity.
    + apply (IH c EF EK CC).
Qed.

Lemma additions_char fs ctx l P0 : filters_answer fs ctx ->
  let s := xs_set (xs_run (additions ctx l) (mkXC P0 [] fs)) in
  filter undefined_b s = filter undefined_b (offered fs ctx l) /\
  (forall x, undefined_b x = false -> In x s <-> In x (offered fs ctx l)) /\
  NoDup (filter (fun x => negb (undefined_b x)) s).
Proof.
  intros T s. destruct (additions_inv fs ctx l T (mkXC P0 [] fs) eq_refl) as (A & B & _).
  { unfold kept. cbn. destruct (prec_eqb _ _); reflexivity. } { constructor. }
  split; [exact A|]. split.
  - intros x U. specialize (B x U). cbn [xs_set In] in B. unfold s. tauto.
  - apply defined_once; constructor.
Qed.
Lemma split_perm {A} (f : A -> bool) l : Permutation l (filter f l ++ filter (fun x => negb (f x)) l).
Proof.
  induction l as [|x l IH]; cbn [filter]; [constructor|]. destruct (f x); cbn [negb].
  - cbn. constructor. exact IH.
  - apply Permutation_cons_app. exact IH.
Qed.
Lemma filter_perm {A} (f : A -> bool) l l' : Permutation l l' -> Permutation (filter f l) (filter f l').
Proof.
  induction 1 as [|x l l' P IH|x y l|l1 l2 l3 P1 IH1 P2 IH2]; cbn [filter]; auto.
  - destruct (f x); auto.
  - destruct (f x), (f y); auto. apply perm_swap.
  - eapply perm_trans; eauto.
Qed.
Lemma any_order fs ctx l l' P0 : filters_answer fs ctx -> Permutation l l' ->
  Permutation (xs_set (xs_run (additions ctx l) (mkXC P0 [] fs))) (xs_set (xs_run (additions ctx l') (mkXC P0 [] fs))).
Proof.
  intros T PL.
  destruct (additions_char fs ctx l P0 T) as (A & B & C). destruct (additions_char fs ctx l' P0 T) as (A' & B' & C').
  assert (PO : Permutation (offered fs ctx l) (offered fs ctx l')) by (apply Permutation_map, filter_perm, Permutation_map, PL).
  eapply perm_trans; [apply (split_perm undefined_b)|]. eapply perm_trans; [|apply Permutation_sym, (split_perm undefined_b)].
  apply Permutation_app.
  - rewrite A, A'. apply filter_perm, PO.
  - apply NoDup_Permutation; [exact C|exact C'|]. intro x. rewrite !filter_In. split; intros [K U]; (split; [|exact U]);
    apply negb_true_iff in U.
    + apply (B' x U). apply (Permutation_in x PO). apply (B x U). exact K.
    + apply (B x U). apply (Permutation_in x (Permutation_sym PO)). apply (B' x U). exact K.
Qed.

(** ** The grid *)
Lemma add_iterates_run info ctx roots c : filters_answer (xs_filters c) ctx ->
  add_iterates info roots ctx c = (xs_run (additions ctx (map (fun z => (info, (z, 0%Z))) roots)) c, Ok tt).
Proof.
  revert c. induction roots as [|z zs IH]; intros c T; [reflexivity|].
  cbn [add_iterates map]. change (additions ctx ((info, (z, 0%Z)) :: map (fun z => (info, (z, 0%Z))) zs)) with
    (XAdd info (z, 0%Z) ctx :: additions ctx (map (fun z => (info, (z, 0%Z))) zs)).
  change (xs_run (XAdd info (z, 0%Z) ctx :: ?h) c) with (xs_run h (fst (xs_add info (z, 0%Z) ctx c))).
  rewrite xs_add_eq. destruct (answers _ ctx (z, 0%Z) T) as [b E]. rewrite E.
  destruct b; cbn [fst]; apply IH; cbn [xs_filters]; exact T.
Qed.
Lemma offered_none ctx l : offered [] ctx l = map (xround (xc_precision ctx)) (map snd l).
Proof. unfold offered. f_equal. induction (map snd l) as [|x y IH]; cbn; [reflexivity|]. now rewrite IH. Qed.
Lemma Forall2_map_r {A B} (f : A -> B) (R : A -> B -> Prop) l : (forall x, R x (f x)) -> Forall2 R l (map f l).
Proof. intro H. induction l; cbn; constructor; auto. Qed.
Lemma filter_map_undefined P l : filter undefined_b (map (xround P) l) = map (xround P) (filter undefined_b l).
Proof. induction l as [|x l IH]; cbn [map filter]; [reflexivity|]. rewrite xround_undefined. destruct (undefined_b x); cbn [map]; now rewrite IH. Qed.
Lemma grid_unfiltered info roots ctx P0 :
  let c := mkXC P0 [] [] in
  let r := xgrid_calcRoots info (Ok roots) ctx c in
  let cand := map (fun z => (z, 0%Z)) roots in
  snd r = Ok tt /\
  Forall2 (xrounded (xc_precision ctx)) (filter undefined_b cand) (filter undefined_b (xs_set (fst r))) /\
  (forall s, ~ undefined s -> In s (xs_set (fst r)) <-> exists z, In z cand /\ xrounded (xc_precision ctx) z s) /\
  NoDup (filter (fun x => negb (undefined_b x)) (xs_set (fst r))).
Proof.
  intros c r cand. assert (T : filters_answer [] ctx) by (intros k p q []).
  unfold r, xgrid_calcRoots. rewrite add_iterates_run by exact T. cbn [fst snd].
  destruct (additions_char [] ctx (map (fun z => (info, (z, 0%Z))) roots) P0 T) as (A & B & C).
  assert (EO : offered [] ctx (map (fun z => (info, (z, 0%Z))) roots) = map (xround (xc_precision ctx)) cand).
  { rewrite offered_none. unfold cand. rewrite !map_map. reflexivity. }
  rewrite EO in A, B. split; [reflexivity|]. split; [|split; [|exact C]].
  - unfold c. rewrite A, filter_map_undefined. apply Forall2_map_r. intro x. apply xrounded_iff. reflexivity.
  - intros s U. assert (U' : undefined_b s = false) by (apply not_true_is_false; rewrite undefined_b_iff; exact U).
    unfold c. rewrite (B s U'), in_map_iff. split; intros (z & K1 & K2); exists z.
    + split; [exact K2|apply xrounded_iff; auto].
    + split; [symmetry; apply xrounded_iff; exact K2|exact K1].
Qed.
Lemma additions_in ctx l i r ctx' : In (XAdd i r ctx') (additions ctx l) -> ctx' = ctx /\ In r (map snd l).
Proof.
  intro K. apply in_map_iff in K as ([i' r'] & E & K). injection E as <- <- <-. split; [reflexivity|].
  apply in_map_iff. exists (i', r'). auto.
Qed.
Lemma grid_bounds info roots ctx P0 fs k : filters_answer fs ctx ->
  dget String.eqb k fs = Some xzero_in_bounds -> finite_range (xc_reRan ctx) -> finite_range (xc_imRan ctx) ->
  let r := xgrid_calcRoots info (Ok roots) ctx (mkXC P0 [] fs) in
  forall s, In s (xs_set (fst r)) -> finite s /\ exists z, In z roots /\ xrounded (xc_precision ctx) (z, 0%Z) s /\
    number_in (xc_reRan ctx) (fst z) /\ number_in (xc_imRan ctx) (snd z).
Proof.
  intros T K R1 R2 r s Is. unfold r, xgrid_calcRoots in Is. rewrite add_iterates_run in Is by exact T. cbn [fst] in Is.
  set (h := additions ctx _) in *.
  assert (L : leaves_filter k h).
  { split; [intro X|intros p X]; apply in_map_iff in X as (? & X & _); discriminate X. }
  assert (R : forall i q ctx', In (XAdd i q ctx') h -> finite_range (xc_reRan ctx') /\ finite_range (xc_imRan ctx')).
  { intros i q ctx' X. apply additions_in in X as [-> _]. auto. }
  destruct (bounds_keep_out k h P0 fs K L R s Is) as (A & i & q & ctx' & B & C & D & E).
  split; [exact A|]. apply additions_in in B as [-> B]. rewrite map_map in B. apply in_map_iff in B as (z & <- & B).
  exists z. auto.
Qed.

Lemma undefined_entries P h : one_precision P h ->
  (forall o, In o h -> (exists i r ctx, o = XAdd i r ctx) \/ (exists r, o = XRemove r)) ->
  Forall2 (xrounded P) (filter undefined_b (candidates h)) (filter undefined_b (xs_set (xs_run h (mkXC P [] [])))).
Proof.
  intros OP ON. rewrite (undefined_count P h (mkXC P [] []) eq_refl eq_refl (Forall_nil _) OP).
  - cbn [xs_set filter app]. apply Forall2_map_r. intro x. apply xrounded_iff. reflexivity.
  - intros o K. destruct (ON o K) as [(i & r & ctx & ->)|(r & ->)]; exact I.
Qed.

(** ** Failures *)
Lemma grid_failure info e ctx c :
  fst (xgrid_calcRoots info (Err e) ctx c) = c /\
  (snd (xgrid_calcRoots info (Err e) ctx c) = Ok tt /\ (e = RuntimeError \/ e = NotImplementedError \/ e = RecursionError) \/
   snd (xgrid_calcRoots info (Err e) ctx c) = Err e /\ e <> RuntimeError).
Proof. split; [reflexivity|]. destruct e; cbn; auto; right; split; auto; discriminate. Qed.
Lemma add_iterates_raises info ctx before z after c e :
  (forall y, In y before -> snd (xs_add info (y, 0%Z) ctx c) = Ok tt) -> snd (xs_add info (z, 0%Z) ctx c) = Err e ->
  add_iterates info (before ++ z :: after) ctx c =
    (xs_run (additions ctx (map (fun y => (info, (y, 0%Z))) before)) c, Err e).
Proof.
  assert (F : forall x c1 c2, xs_filters c1 = xs_filters c2 -> snd (xs_add info x ctx c1) = snd (xs_add info x ctx c2)).
  { intros x c1 c2 E. rewrite !xs_add_eq, E. destruct (xrun_filters _ _ _) as [[]|]; reflexivity. }
  revert c. induction before as [|y ys IH]; intros c H K.
  - cbn [app add_iterates map]. rewrite xs_add_eq in *. destruct (xrun_filters _ _ _) as [[]|]; cbn in K; try discriminate.
    injection K as ->. reflexivity.
  - cbn [app add_iterates map]. pose proof (H y (or_introl eq_refl)) as Y.
    change (additions ctx ((info, (y, 0%Z)) :: ?l)) with (XAdd info (y, 0%Z) ctx :: additions ctx l).
    change (xs_run (XAdd info (y, 0%Z) ctx :: ?h) c) with (xs_run h (fst (xs_add info (y, 0%Z) ctx c))).
    destruct (xs_add info (y, 0%Z) ctx c) as [c1 o1] eqn:A. cbn [fst snd] in *. subst o1.
    assert (EF : xs_filters c1 = xs_filters c).
    { rewrite xs_add_eq in A. destruct (xrun_filters _ _ _) as [[]|]; injection A as <-; reflexivity. }
    apply IH; [intros w W|]; rewrite (F _ c1 c EF); auto. apply H. right. exact W.
Qed.
Lemma grid_raises info ctx before z after c e :
  (forall y, In y before -> snd (xs_add info (y, 0%Z) ctx c) = Ok tt) -> snd (xs_add info (z, 0%Z) ctx c) = Err e ->
  xgrid_calcRoots info (Ok (before ++ z :: after)) ctx c = (fst (xgrid_calcRoots info (Ok before) ctx c), Err e).
Proof.
  intros H K. cbn [xgrid_calcRoots]. rewrite (add_iterates_raises info ctx before z after c e H K). f_equal.
  clear K. revert c H. induction before as [|y ys IH]; intros c H; [reflexivity|]. cbn [add_iterates map].
  pose proof (H y (or_introl eq_refl)) as Y.
  change (additions ctx ((info, (y, 0%Z)) :: ?l)) with (XAdd info (y, 0%Z) ctx :: additions ctx l).
  change (xs_run (XAdd info (y, 0%Z) ctx :: ?h) c) with (xs_run h (fst (xs_add info (y, 0%Z) ctx c))).
  destruct (xs_add info (y, 0%Z) ctx c) as [c1 o1] eqn:A. cbn [fst snd] in *. subst o1.
  assert (EF : xs_filters c1 = xs_filters c).
  { rewrite xs_add_eq in A. destruct (xrun_filters _ _ _) as [[]|]; injection A as <-; reflexivity. }
  apply IH. intros w W. specialize (H w (or_intror W)). rewrite xs_add_eq in H |- *. rewrite EF.
  destruct (xrun_filters _ _ _) as [[]|]; cbn in *; auto.
Qed.
