(** * Proofs about the summation estimator: requests *)
From Coq Require Import Reals.
From Verif Require Import PyBase Cache_Proofs Sum_Model Sum_Spec Angle_Proofs Sum_Proofs Sum_Proofs2.
From Coq Require Import Lra Lqa.
Open Scope Z_scope.

Lemma sum_line_swap f delta mp n prec fuel order x1 x2 y st : ~ (x1 == x2)%Q ->
  sum_line f delta mp n prec fuel order (x2, y) (x1, y) st =
  (fst (sum_line f delta mp n prec fuel order (x1, y) (x2, y) st),
   negated (snd (sum_line f delta mp n prec fuel order (x1, y) (x2, y) st))).
Proof.
  intro N. unfold sum_line, sumLine. cbn [re im fst snd]. rewrite Qeq_bool_refl.
  destruct (Qlt_le_dec x1 x2) as [L|L].
  - rewrite (retrieve_swap _ _ _ _ _ _ _ _ _ _ _ _ _ _ _ _ x1 x2 _ L).
    destruct (retrieveCached _ _ _ _ _ _ _ _ _ _ _ _ _ _ _ _ x1 x2 _); reflexivity.
  - assert (L' : (x2 < x1)%Q) by (apply Qle_lteq in L as [L|L]; [exact L|symmetry in L; contradiction]).
    rewrite (retrieve_swap _ _ _ _ _ _ _ _ _ _ _ _ _ _ _ _ x2 x1 _ L').
    destruct (retrieveCached _ _ _ _ _ _ _ _ _ _ _ _ _ _ _ _ x2 x1 _); cbn; [|reflexivity|reflexivity].
    rewrite Ropp_involutive. reflexivity.
Qed.

Lemma sum_line_swap_vertical f delta mp n prec fuel order x y1 y2 st : ~ (y1 == y2)%Q ->
  sum_line f delta mp n prec fuel order (x, y2) (x, y1) st =
  (fst (sum_line f delta mp n prec fuel order (x, y1) (x, y2) st),
   negated (snd (sum_line f delta mp n prec fuel order (x, y1) (x, y2) st))).
Proof.
  intro N. unfold sum_line, sumLine. cbn [re im fst snd]. rewrite Qeq_bool_refl.
  assert (Qeq_bool y1 y2 = false) as -> by (apply Qeqb_false, N).
  assert (Qeq_bool y2 y1 = false) as -> by (apply Qeqb_false; intro C; apply N; symmetry; exact C).
  destruct (Qlt_le_dec y1 y2) as [L|L].
  - rewrite (retrieve_swap _ _ _ _ _ _ _ _ _ _ _ _ _ _ _ _ y1 y2 _ L).
    destruct (retrieveCached _ _ _ _ _ _ _ _ _ _ _ _ _ _ _ _ y1 y2 _); reflexivity.
  - assert (L' : (y2 < y1)%Q) by (apply Qle_lteq in L as [L|L]; [exact L|symmetry in L; contradiction]).
    rewrite (retrieve_swap _ _ _ _ _ _ _ _ _ _ _ _ _ _ _ _ y2 y1 _ L').
    destruct (retrieveCached _ _ _ _ _ _ _ _ _ _ _ _ _ _ _ _ y2 y1 _); cbn; [|reflexivity|reflexivity].
    rewrite Ropp_involutive. reflexivity.
Qed.

(** ** Rejected requests (C43) *)
Lemma oblique_rejected f delta mp n prec fuel order a b st : ~ parallel a b ->
  sum_line f delta mp n prec fuel order a b st = (st, SumErr ValueError).
Proof.
  intro N. unfold sum_line, sumLine.
  assert (Qeq_bool (im a) (im b) = false) as -> by (apply Qeqb_false; intro; apply N; left; assumption).
  assert (Qeq_bool (re a) (re b) = false) as -> by (apply Qeqb_false; intro; apply N; right; assumption).
  reflexivity.
Qed.

Lemma error_keeps_state f delta mp n prec fuel order a b st st' e :
  sum_line f delta mp n prec fuel order a b st = (st', SumErr e) -> st' = st.
Proof.
  unfold sum_line, sumLine. intro H.
  destruct (Qeq_bool (im a) (im b)).
  { destruct (retrieveCached _ _ _ _ _ _ _ _ _ _ _ _ _ _ _ _ _ _ _); congruence. }
  destruct (Qeq_bool (re a) (re b)); [|congruence].
  destruct (retrieveCached _ _ _ _ _ _ _ _ _ _ _ _ _ _ _ _ _ _ _); congruence.
Qed.

Definition only_order_0 {A} (c : lcache A) : Prop :=
  forall level order, order <> 0 -> dget okey_eqb (level, order) c = None.

Section Order.
  Context {A : Type} (azero : A) (aadd : A -> A -> A) (aopp : A -> A).
  Variables (fz : cplx -> bool) (dphase : cplx -> cplx -> A) (large : A -> bool)
    (factor : nat -> A -> nat) (close : cplx -> cplx -> bool) (numPts : nat) (precision : Z * Z).
  Notation retrieve := (retrieveCached azero aadd aopp fz dphase large factor close numPts precision).

  Lemma genPhiArr_order fuel order a b : order <> 0 ->
    genPhiArr azero fz dphase large factor close numPts precision fuel order a b = GenErr NotImplementedError.
  Proof. intro H. unfold genPhiArr. destruct (Z.eqb_spec order 0); [contradiction|reflexivity]. Qed.

  Lemma store_order_0 level order s1 s2 v (c : lcache A) : only_order_0 c -> only_order_0 (storeCache level order s1 s2 v c).
  Proof. intros H l o N. rewrite level_store. apply H, N. Qed.

  Lemma retrieve_order_0 end_test coord point level fuel order t1 t2 c c' found phi :
    only_order_0 c -> retrieve end_test coord point level fuel order t1 t2 c = LineOk c' found phi ->
    only_order_0 c'.
  Proof.
    intros H R. destruct (Z.eq_dec order 0) as [->|N].
    - unfold retrieveCached in R.
      assert (HD : only_order_0 (dset okey_eqb (level, 0) [] c)).
      { intros l o No. rewrite (dget_dset okey_eqb okey_t okey_s).
        destruct (okey_eqb (l, o) (level, 0)) eqn:K; [|apply H, No].
        apply okey_iff in K as [_ K]. cbn in K. contradiction. }
      destruct (dget okey_eqb (level, 0) c) as [d|].
      2:{ destruct (genPhiArr _ _ _ _ _ _ _ _ _ _ _ _); try discriminate.
          injection R as <- _ _. apply store_order_0, HD. }
      destruct (dget skey_eqb _ d) as [v|].
      { destruct (Nat.ltb _ _).
        - destruct (genPhiArr _ _ _ _ _ _ _ _ _ _ _ _); try discriminate.
          injection R as <- _ _. apply store_order_0, H.
        - destruct (last_index _ _); [|discriminate]. injection R as <- _ _. apply store_order_0, H. }
      destruct (dget skey_eqb _ d) as [v|].
      { destruct (Nat.ltb _ _).
        - destruct (genPhiArr _ _ _ _ _ _ _ _ _ _ _ _); try discriminate.
          injection R as <- _ _. apply store_order_0, H.
        - destruct (first_index _ _); [|discriminate]. injection R as <- _ _. apply store_order_0, H. }
      destruct (genPhiArr _ _ _ _ _ _ _ _ _ _ _ _); try discriminate.
      injection R as <- _ _. apply store_order_0, H.
    - exfalso. unfold retrieveCached in R. rewrite (H level order N) in R.
      rewrite genPhiArr_order in R by exact N. discriminate.
  Qed.

  Lemma retrieve_other_order end_test coord point level fuel order t1 t2 c :
    only_order_0 c -> order <> 0 ->
    retrieve end_test coord point level fuel order t1 t2 c = LineErr NotImplementedError.
  Proof.
    intros H N. unfold retrieveCached. rewrite (H level order N), genPhiArr_order by exact N. reflexivity.
  Qed.
End Order.

Lemma served_order_0 h : only_order_0 (horizontal (served h)) /\ only_order_0 (vertical (served h)).
Proof.
  unfold served. induction h as [|q h IH] using rev_ind; [split; intros ? ? ?; reflexivity|].
  rewrite fold_left_app. cbn [fold_left]. destruct IH as [I1 I2].
  unfold serve, sum_line, sumLine. set (st := fold_left serve h fresh_sum) in *.
  destruct (Qeq_bool (im (rq_start q)) (im (rq_end q))).
  { destruct (retrieveCached _ _ _ _ _ _ _ _ _ _ _ _ _ _ _ _ _ _ _) as [c found phi|e|] eqn:R;
      cbn [fst horizontal vertical]; [|auto|auto].
    split; [|exact I2]. exact (retrieve_order_0 _ _ _ _ _ _ _ _ _ _ _ _ _ _ _ _ _ _ _ _ _ _ I1 R). }
  destruct (Qeq_bool (re (rq_start q)) (re (rq_end q))); [|auto].
  destruct (retrieveCached _ _ _ _ _ _ _ _ _ _ _ _ _ _ _ _ _ _ _) as [c found phi|e|] eqn:R;
    cbn [fst horizontal vertical]; [|auto|auto].
  split; [exact I1|]. exact (retrieve_order_0 _ _ _ _ _ _ _ _ _ _ _ _ _ _ _ _ _ _ _ _ _ _ I2 R).
Qed.

Lemma higher_orders_rejected h f delta mp n prec fuel order a b : order <> 0 -> parallel a b ->
  sum_line f delta mp n prec fuel order a b (served h) = (served h, SumErr NotImplementedError).
Proof.
  intros N P. destruct (served_order_0 h) as [I1 I2]. unfold sum_line, sumLine.
  destruct (Qeq_bool (im a) (im b)) eqn:E1.
  { rewrite retrieve_other_order by assumption. reflexivity. }
  destruct (Qeq_bool (re a) (re b)) eqn:E2.
  { rewrite retrieve_other_order by assumption. reflexivity. }
  destruct P as [P|P]; apply Qeq_bool_iff in P; congruence.
Qed.

(** ** Horizontal requests never raise (C64) *)
Lemma count_first {A} (p : A -> bool) l : (0 < count_where p l)%nat -> first_index p l <> None.
Proof.
  intros H C. rewrite first_index_none in C. unfold count_where in H.
  assert (filter p l = []); [|rewrite H0 in H; cbn in H; lia].
  induction l as [|a l IH]; [reflexivity|]. cbn. rewrite (C a (or_introl eq_refl)).
  cbn in H. rewrite (C a (or_introl eq_refl)) in H. apply IH; [exact H|]. intros; apply C; right; assumption.
Qed.

Lemma count_last {A} (p : A -> bool) l : (0 < count_where p l)%nat -> last_index p l <> None.
Proof.
  unfold count_where. induction l as [|a l IH]; cbn; [lia|].
  destruct (last_index p l); [discriminate|]. destruct (p a); [discriminate|]. exact IH.
Qed.

Lemma horizontal_no_error f delta mp n prec fuel a b st : (im a == im b)%Q ->
  forall e, snd (sum_line f delta mp n prec fuel 0 a b st) <> SumErr e.
Proof.
  intros H e. unfold sum_line, sumLine. apply Qeq_bool_iff in H. rewrite H.
  assert (G : forall x y, genPhiArr 0%R (vanishes f) (phase_step f) (at_least delta) (refinement delta)
     (nearer mp) n prec fuel 0 x y <> GenErr e).
  { intros x y. unfold genPhiArr. cbn [Z.eqb]. destruct (genFuncArr _ _ _ _ _ _) as [[zs fd]|]; [|discriminate].
    generalize (increments (phase_step f) zs). generalize 0%nat. revert zs fd.
    generalize fuel at 1. clear. intro fuel. induction fuel as [|fuel IH]; intros zs fd idx phis; cbn [phi_loop].
    - destruct (first_index _ _); discriminate.
    - destruct (first_index _ _); [|discriminate]. destruct (nearer _ _ _); [discriminate|].
      destruct (Nat.ltb _ _); [discriminate|]. destruct (genFuncArr _ _ _ _ _ _) as [[? ?]|]; [|discriminate].
      apply IH. }
  match goal with |- context [retrieveCached _ _ _ _ _ _ _ _ _ _ _ _ _ ?lv _ _ ?t1 ?t2 ?c] =>
    set (lvl := lv); set (u1 := t1); set (u2 := t2); set (cc := c) end.
  destruct (retrieveCached _ _ _ _ _ _ _ _ _ _ _ _ _ _ _ _ _ _ _) as [c' fd phi|e'|] eqn:R; cbn [snd]; try discriminate.
  intros [= ->]. unfold retrieveCached in R.
  destruct (dget okey_eqb _ cc) as [d|].
  2:{ destruct (genPhiArr _ _ _ _ _ _ _ _ _ _ _ _) eqn:GG; try discriminate. injection R as ->. exact (G _ _ GG). }
  destruct (dget skey_eqb _ d) as [v|].
  { destruct (Nat.ltb _ _) eqn:C.
    - destruct (genPhiArr _ _ _ _ _ _ _ _ _ _ _ _) eqn:GG; try discriminate. injection R as ->. exact (G _ _ GG).
    - destruct (last_index _ _) eqn:LI; [discriminate|]. apply Nat.ltb_ge in C. revert LI. apply count_last. lia. }
  destruct (dget skey_eqb _ d) as [v|].
  { destruct (Nat.ltb _ _) eqn:C.
    - destruct (genPhiArr _ _ _ _ _ _ _ _ _ _ _ _) eqn:GG; try discriminate. injection R as ->. exact (G _ _ GG).
    - destruct (first_index _ _) eqn:LI; [discriminate|]. apply Nat.ltb_ge in C. revert LI.
      apply count_first. unfold horizontal_end_test in C. lia. }
  destruct (genPhiArr _ _ _ _ _ _ _ _ _ _ _ _) eqn:GG; try discriminate. injection R as ->. exact (G _ _ GG).
Qed.
