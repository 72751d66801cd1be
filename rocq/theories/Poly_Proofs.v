(** * Proofs about associated polynomials (C26-C28) *)
From Coq Require Import Permutation Setoid Morphisms Ring.
From Verif Require Import PyBase Poly_Model Poly_Spec NewtonId_Proofs.
Open Scope Z_scope.

(** ** The complex numbers with rational coordinates form a ring *)
Definition csub (z w : cplx) : cplx := cadd z (copp w).

Global Instance ceq_equiv : Equivalence ceq.
Proof. constructor; [exact ceq_refl|exact ceq_sym|exact ceq_trans]. Qed.
Global Instance cadd_proper : Proper (ceq ==> ceq ==> ceq) cadd.
Proof. intros a b [H1 H2] c d [H3 H4]. split; cbn; [rewrite H1, H3|rewrite H2, H4]; reflexivity. Qed.
Global Instance cmul_proper : Proper (ceq ==> ceq ==> ceq) cmul.
Proof. intros a b [H1 H2] c d [H3 H4]. split; cbn; rewrite H1, H2, H3, H4; reflexivity. Qed.
Global Instance copp_proper : Proper (ceq ==> ceq) copp.
Proof. intros a b [H1 H2]. split; cbn; [rewrite H1|rewrite H2]; reflexivity. Qed.
Global Instance csub_proper : Proper (ceq ==> ceq ==> ceq) csub.
Proof. intros a b H c d K. unfold csub. rewrite H, K. reflexivity. Qed.
Global Instance cdivn_proper : Proper (ceq ==> eq ==> ceq) cdivn.
Proof. intros a b [H1 H2] n m E. subst m. split; cbn; [rewrite H1|rewrite H2]; reflexivity. Qed.

Lemma cplx_ring : ring_theory c0 c1 cadd cmul csub copp ceq.
Proof. constructor; intros; split; cbn; try ring. Qed.
Add Ring cplx_ring_inst : cplx_ring (setoid ceq_equiv (req_ext cadd cmul copp ceq _ _ _)).

Lemma nmul_coords n z :
  ceq (nmul c0 cadd n z) (inject_Z (Z.of_nat n) * re z, inject_Z (Z.of_nat n) * im z)%Q.
Proof.
  induction n as [|n IH].
  - split; cbn; ring.
  - cbn [nmul]. rewrite IH. rewrite Nat2Z.inj_succ. unfold Z.succ.
    split; cbn [re im cadd fst snd]; rewrite inject_Z_plus; ring.
Qed.

Lemma cdivn_nmul k z : ceq (cdivn (nmul c0 cadd (S k) z) (S k)) z.
Proof.
  assert (H : ~ (inject_Z (Z.of_nat (S k)) == 0)%Q).
  { intro C. unfold Qeq in C. cbn [Qnum Qden inject_Z] in C. lia. }
  rewrite nmul_coords. split; cbn [re im cdivn fst snd]; field; exact H.
Qed.

Lemma Q_sq_sum_zero a b : (a * a + b * b == 0)%Q -> (a == 0)%Q /\ (b == 0)%Q.
Proof.
  intro H. assert (Ha : (0 <= a * a)%Q) by nra. assert (Hb : (0 <= b * b)%Q) by nra.
  split.
  - assert (K : (a * a == 0)%Q) by lra. apply Qmult_integral in K. tauto.
  - assert (K : (b * b == 0)%Q) by lra. apply Qmult_integral in K. tauto.
Qed.

Lemma cmul_integral z w : ceq (cmul z w) c0 -> ceq z c0 \/ ceq w c0.
Proof.
  destruct z as [a b], w as [c d]. unfold ceq, cmul. cbn. intros [H1 H2].
  destruct (Qeq_dec a 0) as [Ea|Ea]; [destruct (Qeq_dec b 0) as [Eb|Eb]; [left; split; assumption|]|].
  - right. assert (K : ((b * b + a * a) * c == 0)%Q).
    { transitivity (a * (a * c - b * d) + b * (a * d + b * c))%Q; [ring|]. rewrite H1, H2. ring. }
    assert (K2 : ((b * b + a * a) * d == 0)%Q).
    { transitivity (a * (a * d + b * c) - b * (a * c - b * d))%Q; [ring|]. rewrite H1, H2. ring. }
    assert (N : ~ (b * b + a * a == 0)%Q) by (intro C; apply Q_sq_sum_zero in C; tauto).
    apply Qmult_integral in K. apply Qmult_integral in K2. tauto.
  - right. assert (K : ((a * a + b * b) * c == 0)%Q).
    { transitivity (a * (a * c - b * d) + b * (a * d + b * c))%Q; [ring|]. rewrite H1, H2. ring. }
    assert (K2 : ((a * a + b * b) * d == 0)%Q).
    { transitivity (a * (a * d + b * c) - b * (a * c - b * d))%Q; [ring|]. rewrite H1, H2. ring. }
    assert (N : ~ (a * a + b * b == 0)%Q) by (intro C; apply Q_sq_sum_zero in C; tauto).
    apply Qmult_integral in K. apply Qmult_integral in K2. tauto.
Qed.

(** ** Relating the independent specification to the generic development *)
Notation asymC := (asym c0 c1 cmul csub).
Notation psumC := (psum c0 c1 cadd cmul).

Lemma power_sum_psum zs k : power_sum zs k = psumC zs k.
Proof.
  assert (P : forall z k, cpow z k = power c1 cmul z k) by (intros z j; induction j; cbn; congruence).
  unfold power_sum, csum. induction zs as [|z zs IH]; [reflexivity|]. cbn. rewrite IH, P. reflexivity.
Qed.

Lemma poly_eq_refl p : poly_eq p p.
Proof. induction p; constructor; auto. reflexivity. Qed.
Lemma poly_eq_sym p q : poly_eq p q -> poly_eq q p.
Proof. induction 1; constructor; auto. symmetry; assumption. Qed.
Lemma poly_eq_trans p : forall q r, poly_eq p q -> poly_eq q r -> poly_eq p r.
Proof. apply (leq_trans ceq _). Qed.

(** Coefficients of the product, read by index from the leading one. *)
Lemma poly_add_nth a : forall b i, nth i (poly_add a b) c0 = 
  match nth_error a i, nth_error b i with
  | Some x, Some y => cadd x y | Some x, None => x | None, Some y => y | None, None => c0 end.
Proof.
  induction a as [|x a IH]; intros b i.
  - cbn [poly_add]. replace (nth_error [] i) with (@None cplx) by (destruct i; reflexivity).
    rewrite <- nth_default_eq. unfold nth_default. reflexivity.
  - destruct b as [|y b].
    + cbn [poly_add]. rewrite <- nth_default_eq. unfold nth_default.
      replace (nth_error [] i) with (@None cplx) by (destruct i; reflexivity). reflexivity.
    + destruct i as [|i]; cbn; [reflexivity|]. apply IH.
Qed.

Lemma poly_add_len a : forall b, List.length (poly_add a b) = Nat.max (List.length a) (List.length b).
Proof. induction a as [|x a IH]; intros [|y b]; cbn; auto. Qed.

Lemma times_linear_len z p : List.length (times_linear z p) = S (List.length p).
Proof. unfold times_linear, poly_scale. rewrite poly_add_len, map_length. cbn [List.length]. lia. Qed.

Lemma monic_len zs : List.length (monic_with_zeros zs) = S (List.length zs).
Proof.
  induction zs as [|z zs IH]; [reflexivity|]. cbn [monic_with_zeros fold_right List.length].
  rewrite times_linear_len. f_equal. exact IH.
Qed.

Lemma times_linear_nth z p i : ceq (nth i (times_linear z p) c0)
  (csub (match i with O => c0 | S j => nth j p c0 end) (cmul z (nth i p c0))).
Proof.
  unfold times_linear. rewrite poly_add_nth. unfold poly_scale.
  rewrite nth_error_map.
  destruct i as [|i].
  - cbn [nth_error]. destruct p as [|a p]; cbn [nth_error nth option_map]; ring.
  - change (nth_error (c0 :: p) (S i)) with (nth_error p i). rewrite <- (nth_default_eq i p c0), <- (nth_default_eq (S i) p c0). unfold nth_default.
    destruct (nth_error p (S i)) as [a|] eqn:Ea; cbn [option_map].
    + destruct (nth_error p i) as [b|] eqn:Eb.
      * ring.
      * exfalso. apply nth_error_None in Eb. assert (S i < List.length p)%nat by (apply nth_error_Some; congruence). lia.
    + destruct (nth_error p i) as [b|] eqn:Eb; ring.
Qed.

Lemma monic_nth zs : forall i, (i <= List.length zs)%nat ->
  ceq (nth i (monic_with_zeros zs) c0) (asymC zs (List.length zs - i)).
Proof.
  induction zs as [|z zs IH]; intros i Hi.
  - cbn in Hi. replace i with 0%nat by lia. reflexivity.
  - cbn [monic_with_zeros fold_right]. fold (monic_with_zeros zs). rewrite times_linear_nth.
    cbn [List.length] in *.
    destruct i as [|i].
    + rewrite (IH 0%nat) by lia. rewrite !Nat.sub_0_r. cbn [asym pred_of].
      rewrite (asym_beyond c0 c1 cadd cmul csub copp ceq _ _ _ _ cplx_ring zs (S (List.length zs))) by lia.
      reflexivity.
    + rewrite (IH i) by lia. replace (S (List.length zs) - S i)%nat with (List.length zs - i)%nat by lia.
      cbn [asym].
      destruct (Nat.eq_dec i (List.length zs)) as [E|E].
      * subst i. rewrite nth_overflow by (rewrite monic_len; lia). rewrite Nat.sub_diag. reflexivity.
      * rewrite (IH (S i)) by lia. unfold pred_of.
        replace (List.length zs - i)%nat with (S (List.length zs - S i)) by lia. reflexivity.
Qed.

Lemma poly_eq_nth p q : List.length p = List.length q ->
  (forall i, (i < List.length p)%nat -> ceq (nth i p c0) (nth i q c0)) -> poly_eq p q.
Proof.
  revert q. induction p as [|a p IH]; intros [|b q] HL H; try discriminate; [constructor|].
  constructor; [apply (H 0%nat); cbn; lia|]. apply IH; [cbn in HL; lia|].
  intros i Hi. apply (H (S i)). cbn. lia.
Qed.
Lemma poly_eq_get p q i : poly_eq p q -> ceq (nth i p c0) (nth i q c0).
Proof. intro H. revert i. induction H; intros [|i]; cbn; try reflexivity; auto. Qed.
Lemma poly_eq_len p q : poly_eq p q -> List.length p = List.length q.
Proof. induction 1; cbn; congruence. Qed.

Lemma monic_asym zs :
  poly_eq (map (fun i => asymC zs (List.length zs - i)) (seq 0 (S (List.length zs)))) (monic_with_zeros zs).
Proof.
  apply poly_eq_nth.
  - rewrite map_length, seq_length, monic_len. reflexivity.
  - intros i Hi. rewrite map_length, seq_length in Hi.
    rewrite (nth_indep _ c0 (asymC zs (List.length zs - 0))) by (rewrite map_length, seq_length; exact Hi).
    rewrite (map_nth (fun i => asymC zs (List.length zs - i)) (seq 0 (S (List.length zs))) 0%nat i).
    rewrite seq_nth by exact Hi. cbn [Nat.add]. symmetry. apply monic_nth. lia.
Qed.

(** C27 *)
Lemma coefficients_exact zs ms : poly_eq ms (power_sums zs) ->
  poly_eq (coefficients_cplx ms) (monic_with_zeros zs).
Proof.
  intro H.
  assert (L : List.length (power_sums zs) = List.length zs)
    by (unfold power_sums; rewrite map_length, seq_length; reflexivity).
  eapply poly_eq_trans; [|apply monic_asym].
  eapply poly_eq_trans.
  2:{ apply (coefficients_spec c0 c1 cadd cmul csub copp cdivn ceq _ _ _ _ _ cplx_ring cdivn_nmul zs (power_sums zs) L).
      intros i Hi. rewrite L in Hi. unfold power_sums. rewrite nth_error_map.
      rewrite (nth_error_nth' _ 0%nat) by (rewrite seq_length; exact Hi).
      cbn [option_map]. rewrite seq_nth by exact Hi. rewrite power_sum_psum. reflexivity. }
  apply (coefficients_ext c0 c1 cadd cmul copp cdivn ceq _ _ _ _ _). exact H.
Qed.

Lemma eval_exact zs ms x : poly_eq ms (power_sums zs) ->
  ceq (eval_poly (coefficients_cplx ms) x) (product_at zs x).
Proof.
  intro H.
  assert (E1 : forall p q, poly_eq p q -> ceq (eval_poly p x) (eval_poly q x)).
  { induction 1 as [|a b p q Ha Hp IH]; [reflexivity|]. cbn [eval_poly fold_right].
    fold (eval_poly p x). fold (eval_poly q x). rewrite Ha, IH. reflexivity. }
  rewrite (E1 _ _ (coefficients_exact zs ms H)).
  rewrite <- (E1 _ _ (monic_asym zs)).
  assert (E2 : forall p, eval_poly p x = horner c0 cadd cmul p x) by (intro p; induction p as [|a p IH]; [reflexivity|]; cbn [horner]; rewrite <- IH; reflexivity).
  rewrite E2.
  rewrite (horner_map c0 c1 cadd cmul csub copp ceq _ _ _ _ cplx_ring (fun i => asymC zs (List.length zs - i))).
  rewrite <- (prod_lin_asym c0 c1 cadd cmul csub copp ceq _ _ _ _ cplx_ring).
  assert (E3 : forall l, prod_lin c1 cmul csub l x = product_at l x).
  { intro l. unfold product_at. induction l as [|z l IH]; cbn [prod_lin map fold_right]; [reflexivity|].
    rewrite IH; reflexivity. }
  rewrite E3. reflexivity.
Qed.

(** ** Unique factorisation *)
Lemma asym_swap a b l k : ceq (asymC (a :: b :: l) k) (asymC (b :: a :: l) k).
Proof. destruct k as [|[|k]]; cbn [asym pred_of]; ring. Qed.
Lemma asym_cons_ext a b l l' : ceq a b -> (forall k, ceq (asymC l k) (asymC l' k)) ->
  forall k, ceq (asymC (a :: l) k) (asymC (b :: l') k).
Proof.
  intros Ha Hl k. cbn [asym]. destruct k; cbn [pred_of]; rewrite ?Ha, ?Hl; reflexivity.
Qed.
Lemma asym_perm l l' : Permutation l l' -> forall k, ceq (asymC l k) (asymC l' k).
Proof.
  induction 1 as [|x l l' H IH|x y l|l l' l'' H1 IH1 H2 IH2]; intro k.
  - reflexivity.
  - apply asym_cons_ext; [reflexivity|exact IH].
  - apply asym_swap.
  - rewrite IH1. apply IH2.
Qed.
Lemma asym_cancel a l l' : (forall k, ceq (asymC (a :: l) k) (asymC (a :: l') k)) ->
  forall k, ceq (asymC l k) (asymC l' k).
Proof.
  intro H. induction k as [|k IH].
  - specialize (H 0%nat). cbn [asym pred_of] in H.
    transitivity (csub (asymC l 0) (cmul a c0)); [ring|]. rewrite H. ring.
  - specialize (H (S k)). cbn [asym pred_of] in H.
    transitivity (cadd (csub (asymC l (S k)) (cmul a (asymC l k))) (cmul a (asymC l k))); [ring|].
    rewrite H, IH. ring.
Qed.
Lemma prod_zero l x : ceq (prod_lin c1 cmul csub l x) c0 -> exists z, In z l /\ ceq x z.
Proof.
  induction l as [|z l IH]; cbn [prod_lin]; intro H.
  - destruct H as [H _]. cbn in H. discriminate H.
  - apply cmul_integral in H. destruct H as [H|H].
    + exists z. split; [left; reflexivity|]. transitivity (cadd (csub x z) z); [ring|]. rewrite H. ring.
    + destruct (IH H) as [w [Hw1 Hw2]]. exists w. split; [right|]; assumption.
Qed.

Lemma asym_unique rs : forall zs, List.length rs = List.length zs ->
  (forall k, ceq (asymC rs k) (asymC zs k)) -> same_multiset rs zs.
Proof.
  induction rs as [|r rs IH]; intros zs HL H.
  - destruct zs; [|discriminate]. exists []. split; constructor.
  - assert (P0 : ceq (prod_lin c1 cmul csub zs r) c0).
    { rewrite (prod_lin_asym c0 c1 cadd cmul csub copp ceq _ _ _ _ cplx_ring).
      rewrite (sumn_ext c0 cadd ceq _ _ _ (fun i => cmul (asymC (r :: rs) (List.length (r :: rs) - i)) (power c1 cmul r i))).
      2:{ intros i _. rewrite HL, H. reflexivity. }
      rewrite <- HL.
      rewrite <- (prod_lin_asym c0 c1 cadd cmul csub copp ceq _ _ _ _ cplx_ring (r :: rs) r).
      cbn [prod_lin]. ring. }
    destruct (prod_zero _ _ P0) as [z [Hz1 Hz2]].
    destruct (in_split _ _ Hz1) as [l1 [l2 E]].
    assert (Pm : Permutation zs (z :: l1 ++ l2)) by (rewrite E; symmetry; apply Permutation_middle).
    destruct (IH (l1 ++ l2)) as [l [Q1 Q2]].
    + apply Permutation_length in Pm. cbn in *. lia.
    + apply (asym_cancel r). intro k. rewrite H. rewrite (asym_perm _ _ Pm).
      apply asym_cons_ext; [symmetry; exact Hz2|reflexivity].
    + (* place r where z is *)
      assert (R : forall a b, Permutation a b -> forall c, Forall2 ceq c b -> exists d, Permutation c d /\ Forall2 ceq d a).
      { clear. induction 1 as [|x a b H IH|x y a|a b e H1 IH1 H2 IH2]; intros c Hc.
        - inversion Hc; subst. exists []. split; constructor.
        - inversion Hc as [|c1' ? c' ? Hx Hc' ]; subst. destruct (IH c' Hc') as [d [D1 D2]].
          exists (c1' :: d). split; [apply perm_skip, D1|constructor; assumption].
        - inversion Hc as [|p1 ? c' ? Hx Hc' ]; subst. inversion Hc' as [|p2 ? c'' ? Hy Hc'']; subst.
          exists (p2 :: p1 :: c''). split; [apply perm_swap|]. constructor; [assumption|constructor; assumption].
        - destruct (IH2 c Hc) as [d [D1 D2]]. destruct (IH1 d D2) as [d' [D3 D4]].
          exists d'. split; [eapply perm_trans; eassumption|exact D4]. }
      destruct (R zs (z :: l1 ++ l2) Pm (r :: l)) as [d [D1 D2]]; [constructor; assumption|].
      exists d. split; [|exact D2]. eapply perm_trans; [apply perm_skip, Q1|exact D1].
Qed.

Lemma monic_unique rs zs : poly_eq (monic_with_zeros rs) (monic_with_zeros zs) -> same_multiset rs zs.
Proof.
  intro H. assert (HL : List.length rs = List.length zs).
  { apply poly_eq_len in H. rewrite !monic_len in H. lia. }
  apply asym_unique; [exact HL|]. intro k.
  destruct (Nat.le_gt_cases k (List.length zs)) as [Hk|Hk].
  - pose proof (monic_nth rs (List.length rs - k)) as A. pose proof (monic_nth zs (List.length zs - k)) as B.
    replace (List.length rs - (List.length rs - k))%nat with k in A by lia.
    replace (List.length zs - (List.length zs - k))%nat with k in B by lia.
    rewrite <- A by lia. rewrite <- B by lia. rewrite HL. apply poly_eq_get, H.
  - rewrite !(asym_beyond c0 c1 cadd cmul csub copp ceq _ _ _ _ cplx_ring) by lia. reflexivity.
Qed.

Lemma recovery zeros solve f ms : exact_solver zeros solve -> poly_eq ms (power_sums (filter f zeros)) ->
  exists rts, solve (coefficients_cplx ms) = Ok rts /\ same_multiset rts (filter f zeros).
Proof.
  intros HS H. pose proof (coefficients_exact _ ms H) as HC.
  destruct (HS _ _ HC) as [rts [E1 E2]]. exists rts. split; [exact E1|].
  apply monic_unique. eapply poly_eq_trans; [apply poly_eq_sym, E2|exact HC].
Qed.

(** ** Grouping (C28) *)
Lemma same_root_within p a b : same_root p a b = true <-> within p a b.
Proof. unfold same_root, within. rewrite andb_true_iff, !Qltb_true. tauto. Qed.
Lemma within_refl p a : within p a a.
Proof.
  unfold within. setoid_replace (re a - re a)%Q with 0%Q by ring. setoid_replace (im a - im a)%Q with 0%Q by ring.
  split; apply pow10_pos.
Qed.
Lemma within_sym p a b : within p a b -> within p b a.
Proof.
  unfold within. rewrite (Qabs_Qminus (re a)), (Qabs_Qminus (im a)). tauto.
Qed.

Definition cluster_ok (p : Z * Z) (g : cplx * Z) (cl : list cplx) : Prop :=
  snd g = Z.of_nat (List.length cl) /\ In (fst g) cl /\ forall a, In a cl -> within p a (fst g).

Lemma insert_cluster p a : forall gs cls, Forall2 (cluster_ok p) gs cls ->
  exists cls', Forall2 (cluster_ok p) (group_insert p a gs) cls' /\
               Permutation (List.concat cls') (a :: List.concat cls).
Proof.
  induction gs as [|[b o] gs IH]; intros cls H.
  - inversion H; subst. exists [[a]]. split; [|apply Permutation_refl].
    constructor; [|constructor]. split; [reflexivity|]. split; [left; reflexivity|].
    intros x Hx. destruct Hx as [Hx|[]]. subst x. apply within_refl.
  - inversion H as [|? cl ? cls' [H1 [H2 H3]] Hr]; subst. cbn [group_insert].
    destruct (same_root p a b) eqn:E.
    + exists ((a :: cl) :: cls'). split; [|apply Permutation_refl].
      constructor; [|exact Hr]. cbn [fst snd] in *. split; [|split].
      * cbn [fst snd List.length]. lia.
      * right. exact H2.
      * intros x Hx. destruct Hx as [Hx|Hx]; [subst x; apply same_root_within, E|apply H3, Hx].
    + destruct (IH cls' Hr) as [c2 [K1 K2]]. exists (cl :: c2). split.
      * constructor; [|exact K1]. split; [exact H1|split; assumption].
      * cbn [List.concat]. eapply perm_trans; [apply Permutation_app_head, K2|].
        symmetry. apply Permutation_middle.
Qed.

Lemma group_fold p roots : forall gs cls, Forall2 (cluster_ok p) gs cls ->
  exists cls', Forall2 (cluster_ok p) (fold_left (fun gs a => group_insert p a gs) roots gs) cls' /\
               Permutation (List.concat cls') (roots ++ List.concat cls).
Proof.
  induction roots as [|a roots IH]; intros gs cls H; cbn [fold_left].
  - exists cls. split; [exact H|apply Permutation_refl].
  - destruct (insert_cluster p a gs cls H) as [c1' [H1 H2]].
    destruct (IH _ _ H1) as [c2 [H3 H4]]. exists c2. split; [exact H3|].
    eapply perm_trans; [exact H4|]. eapply perm_trans; [apply Permutation_app_head, H2|].
    symmetry. apply Permutation_middle.
Qed.

Lemma group_partitions p roots : partitions p roots (group_roots p roots).
Proof.
  destruct (group_fold p roots [] [] (Forall2_nil _)) as [cls [H1 H2]].
  exists cls. split; [rewrite app_nil_r in H2; exact H2|exact H1].
Qed.

Lemma insert_keys p a gs : forall g, In g (map fst (group_insert p a gs)) ->
  In g (map fst gs) \/ (g = a /\ forall b, In b (map fst gs) -> ~ within p a b).
Proof.
  induction gs as [|[b o] gs IH]; intro g; cbn [group_insert map fst].
  - intros [H|[]]. right. split; [symmetry; exact H|]. intros b [].
  - destruct (same_root p a b) eqn:E; cbn [map fst].
    + intro H. left. exact H.
    + intros [H|H]; [left; left; exact H|]. destruct (IH g H) as [K|[K1 K2]]; [left; right; exact K|].
      right. split; [exact K1|]. intros c Hc. destruct Hc as [Hc|Hc]; [|apply K2, Hc].
      subst c. intro W. apply same_root_within in W. cbn [fst] in W. congruence.
Qed.

Lemma insert_sep p a gs : ForallOrdPairs (fun g h => ~ within p (fst g) (fst h)) gs ->
  ForallOrdPairs (fun g h : cplx * Z => ~ within p (fst g) (fst h)) (group_insert p a gs).
Proof.
  induction 1 as [|[b o] gs H1 H2 IH]; cbn [group_insert].
  - constructor; constructor.
  - destruct (same_root p a b) eqn:E.
    + constructor; [exact H1|exact H2].
    + constructor; [|exact IH]. rewrite Forall_forall in *. intros h Hh.
      assert (K : In (fst h) (map fst (group_insert p a gs))) by (apply in_map, Hh).
      apply insert_keys in K. destruct K as [K|[K1 K2]].
      * apply in_map_iff in K. destruct K as [h' [K1 K2]]. rewrite <- K1. apply (H1 h' K2).
      * rewrite K1. cbn [fst]. intro W. apply within_sym, same_root_within in W. congruence.
Qed.

Lemma group_separated p roots :
  ForallOrdPairs (fun g h => ~ within p (fst g) (fst h)) (group_roots p roots).
Proof.
  unfold group_roots. assert (G : forall gs, ForallOrdPairs (fun g h : cplx * Z => ~ within p (fst g) (fst h)) gs ->
    ForallOrdPairs (fun g h => ~ within p (fst g) (fst h)) (fold_left (fun gs a => group_insert p a gs) roots gs)).
  { induction roots as [|a roots IH]; intros gs H; cbn [fold_left]; [exact H|]. apply IH, insert_sep, H. }
  apply G. constructor.
Qed.

Lemma partition_facts p roots groups : partitions p roots groups ->
  (forall b o, In (b, o) groups -> 1 <= o /\ In b roots) /\
  fold_right Z.add 0 (map snd groups) = Z.of_nat (List.length roots) /\
  (forall a, In a roots -> exists b o, In (b, o) groups /\ within p a b).
Proof.
  intros [cls [HP HF]].
  assert (HI : forall x, In x roots <-> In x (List.concat cls)).
  { intro x. split; apply Permutation_in; [symmetry|]; exact HP. }
  assert (HLen : List.length roots = List.length (List.concat cls)).
  { symmetry. apply Permutation_length, HP. }
  rewrite HLen. clear HP HLen.
  split; [|split].
  - intros b o H. rewrite HI. clear HI. induction HF as [|g cl gs cls [H1 [H2 H3]] HF IH]; [destruct H|].
    cbn [List.concat]. rewrite in_app_iff. destruct H as [H|H].
    + subst g. cbn [fst snd] in *. split; [|left; exact H2].
      destruct cl; [destruct H2|]. cbn [List.length] in H1. lia.
    + destruct (IH H) as [K1 K2]. split; [exact K1|right; exact K2].
  - clear HI. induction HF as [|g cl gs cls [H1 [H2 H3]] HF IH]; [reflexivity|].
    cbn [map fold_right List.concat]. rewrite app_length, IH, H1. lia.
  - intros a Ha. apply HI in Ha. clear HI. induction HF as [|g cl gs cls [H1 [H2 H3]] HF IH]; [destruct Ha|].
    cbn [List.concat] in Ha. apply in_app_iff in Ha. destruct Ha as [Ha|Ha].
    + exists (fst g), (snd g). split; [left; destruct g; reflexivity|apply H3, Ha].
    + destruct (IH Ha) as [b [o [K1 K2]]]. exists b, o. split; [right; exact K1|exact K2].
Qed.

(** Clusters: tolerance is an equivalence on the roots. *)
Lemma count_of_app {A} (P : A -> Prop) l1 : forall l2 n1 n2,
  count_of P l1 n1 -> count_of P l2 n2 -> count_of P (l1 ++ l2) (n1 + n2).
Proof.
  induction l1 as [|a l1 IH]; intros l2 n1 n2 H1 H2; inversion H1; subst; cbn [app].
  - exact H2.
  - replace (n + 1 + n2) with (n + n2 + 1) by lia. constructor; auto.
  - constructor; auto.
Qed.
Lemma count_of_all {A} (P : A -> Prop) l : (forall a, In a l -> P a) -> count_of P l (Z.of_nat (List.length l)).
Proof.
  induction l as [|a l IH]; intro H; [constructor|]. cbn [List.length]. rewrite Nat2Z.inj_succ. unfold Z.succ.
  constructor; [apply H; left; reflexivity|]. apply IH. intros b Hb. apply H. right; exact Hb.
Qed.
Lemma count_of_none {A} (P : A -> Prop) l : (forall a, In a l -> ~ P a) -> count_of P l 0.
Proof.
  induction l as [|a l IH]; intro H; [constructor|].
  constructor; [apply H; left; reflexivity|]. apply IH. intros b Hb. apply H. right; exact Hb.
Qed.
Lemma count_of_perm {A} (P : A -> Prop) l l' : Permutation l l' -> forall n, count_of P l n -> count_of P l' n.
Proof.
  induction 1 as [|x l l' H IH|x y l|l l' l'' H1 IH1 H2 IH2]; intros n Hn.
  - exact Hn.
  - inversion Hn; subst; [apply count_yes|apply count_no]; auto.
  - inversion Hn as [|? ? n1 A1 B1|? ? n1 A1 B1]; subst; inversion B1 as [|? ? n2 A2 B2|? ? n2 A2 B2]; subst;
      auto using (@count_yes A P), (@count_no A P).
  - auto.
Qed.

Definition transitive_on (p : Z * Z) (roots : list cplx) : Prop :=
  forall a b c, In a roots -> In b roots -> In c roots -> within p a b -> within p b c -> within p a c.

Lemma FOP_split {A} (R : A -> A -> Prop) l1 x l2 : ForallOrdPairs R (l1 ++ x :: l2) ->
  (forall y, In y l1 -> R y x) /\ (forall y, In y l2 -> R x y).
Proof.
  induction l1 as [|a l1 IH]; cbn [app]; intro H.
  - inversion H as [|? ? F1 F2]; subst. rewrite Forall_forall in F1. split; [intros y []|exact F1].
  - inversion H as [|? ? F1 F2]; subst. rewrite Forall_forall in F1. destruct (IH F2) as [K1 K2].
    split; [|exact K2]. intros y [Hy|Hy]; [subst y; apply F1; rewrite in_app_iff; right; left; reflexivity|apply K1, Hy].
Qed.

Lemma group_clusters p roots : transitive_on p roots ->
  forall b o, In (b, o) (group_roots p roots) -> count_of (within p b) roots o.
Proof.
  intros HT b o H.
  pose proof (group_separated p roots) as Sep.
  destruct (group_partitions p roots) as [cls [HP HF]].
  apply (count_of_perm _ _ _ HP).
  destruct (in_split _ _ H) as [g1 [g2 E]]. rewrite E in *. clear H E.
  apply FOP_split in Sep. destruct Sep as [S1 S2]. cbn [fst] in *.
  apply Forall2_app_inv_l in HF. destruct HF as [k1 [k2' [F1 [F2 E]]]]. subst cls.
  inversion F2 as [|? cl ? k2 [H1 [H2 H3]] F3]; subst. cbn [fst snd] in *.
  assert (HIn : forall x, In x (List.concat (k1 ++ cl :: k2)) -> In x roots)
    by (intros x Hx; apply (Permutation_in _ HP), Hx).
  rewrite concat_app in *. cbn [List.concat] in *.
  assert (Hb : In b roots) by (apply HIn; rewrite !in_app_iff; tauto).
  assert (None : forall gs ks, Forall2 (cluster_ok p) gs ks ->
     (forall y, In y gs -> ~ within p b (fst y)) -> (forall x, In x (List.concat ks) -> In x roots) ->
     count_of (within p b) (List.concat ks) 0).
  { intros gs ks HF HN HR. apply count_of_none. intros a Ha W.
    assert (G : exists y, In y gs /\ within p a (fst y) /\ In (fst y) (List.concat ks)).
    { clear -HF Ha. induction HF as [|g c gs ks [A1 [A2 A3]] HF IH]; [destruct Ha|].
      cbn [List.concat] in *. apply in_app_iff in Ha. destruct Ha as [Ha|Ha].
      - exists g. split; [left; reflexivity|]. split; [apply A3, Ha|apply in_app_iff; left; exact A2].
      - destruct (IH Ha) as [y [B1 [B2 B3]]]. exists y. split; [right; exact B1|]. split; [exact B2|apply in_app_iff; right; exact B3]. }
    destruct G as [y [G1 [G2 G3]]]. apply (HN y G1). apply (HT b a (fst y)); auto. }
  replace o with (0 + (o + 0)) by lia.
  apply count_of_app; [|apply count_of_app].
  - apply (None g1 k1 F1).
    + intros y Hy W. apply (S1 y Hy). apply within_sym, W.
    + intros x Hx. apply HIn. rewrite !in_app_iff. tauto.
  - rewrite H1. apply count_of_all. intros a Ha. apply within_sym, H3, Ha.
  - apply (None g2 k2 F3).
    + intros y Hy W. apply (S2 y Hy). exact W.
    + intros x Hx. apply HIn. rewrite !in_app_iff. tauto.
Qed.
