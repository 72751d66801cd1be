(** * Quadrature estimator: proofs *)
From Coq Require Import Reals Qreals.
From Verif Require Import PyBase Sum_Model Sum_Spec Angle_Proofs Sum_Proofs Sum_Proofs2 Quad_Model Quad_Spec.
From Coq Require Import Lra Lqa.
Open Scope Z_scope.

Lemma interleave_length {A} (xs : list A) : forall ys l, interleave xs ys = Some l -> List.length l = (2 * List.length xs)%nat /\ List.length ys = List.length xs.
Proof.
  induction xs as [|x xs IH]; intros [|y ys] l H; try discriminate; cbn in H.
  - injection H as <-. auto.
  - destruct (interleave xs ys) as [l'|] eqn:E; [|discriminate]. injection H as <-.
    destruct (IH _ _ E). cbn. lia.
Qed.

Lemma interleave_some {A} (xs : list A) : forall ys, List.length xs = List.length ys -> exists l, interleave xs ys = Some l.
Proof.
  induction xs as [|x xs IH]; intros ys H; destruct ys as [|y ys]; try discriminate H.
  - exists []. reflexivity.
  - destruct (IH ys) as [l E]; [cbn in H; lia|]. exists (x :: y :: l). cbn. rewrite E. reflexivity.
Qed.

Lemma interleave_map {A B} (g : A -> B) (xs : list A) : forall ys, interleave (map g xs) (map g ys) = option_map (map g) (interleave xs ys).
Proof.
  induction xs as [|x xs IH]; intros [|y ys]; try reflexivity. cbn. rewrite IH.
  destruct (interleave xs ys); reflexivity.
Qed.

Lemma removelast_length {A} (l : list A) : List.length (removelast l) = pred (List.length l).
Proof.
  induction l as [|x l IH]; [reflexivity|]. destruct l; [reflexivity|]. cbn in *. lia.
Qed.

Lemma removelast_map {A B} (g : A -> B) (l : list A) : removelast (map g l) = map g (removelast l).
Proof. induction l as [|x l IH]; [reflexivity|]. destruct l; [reflexivity|]. cbn in *. f_equal. exact IH. Qed.

Lemma mergeArray_some {A} (old new : list A) : List.length old = S (List.length new) ->
  exists l, mergeArray old new = Some l /\ List.length l = S (2 * List.length new).
Proof.
  intro H. unfold mergeArray. destruct (rev old) as [|z r] eqn:R.
  - apply (f_equal (@List.length A)) in R. rewrite rev_length in R. cbn in R. lia.
  - destruct (interleave_some (removelast old) new) as [l E]; [rewrite removelast_length; lia|].
    rewrite E. cbn. eexists. split; [reflexivity|]. apply interleave_length in E as [E _].
    rewrite app_length, E, removelast_length. cbn. lia.
Qed.

Lemma mergeArray_map {A B} (g : A -> B) old new :
  mergeArray (map g old) (map g new) = option_map (map g) (mergeArray old new).
Proof.
  unfold mergeArray. rewrite <- map_rev. destruct (rev old) as [|z r]; [reflexivity|]. cbn.
  rewrite removelast_map, interleave_map. destruct (interleave _ _); [|reflexivity]. cbn. rewrite map_app. reflexivity.
Qed.

Lemma interleave_seq {A} (p q : nat -> A) n : forall i,
  interleave (map p (seq i n)) (map q (seq i n)) =
  Some (map (fun m => if Nat.even m then p (Nat.div2 m) else q (Nat.div2 m)) (seq (2 * i) (2 * n))).
Proof.
  induction n as [|n IH]; intro i; [reflexivity|].
  cbn [seq map]. cbn [interleave]. rewrite IH. replace (2 * S n)%nat with (S (S (2 * n))) by lia.
  cbn [seq map option_map]. f_equal.
  replace (S (S (2 * i))) with (2 * S i)%nat by lia.
  f_equal; [|f_equal].
  - assert (Nat.even (2 * i) = true) as -> by (rewrite Nat.even_mul; reflexivity). rewrite Nat.div2_double. reflexivity.
  - assert (Nat.even (S (2 * i)) = false) as -> by (rewrite Nat.even_succ, <- Nat.negb_even, Nat.even_mul; reflexivity).
    rewrite Nat.div2_succ_double. reflexivity.
Qed.

Lemma interleave_F2 {A} (P : A -> A -> Prop) xs : forall xs' ys ys' l,
  Forall2 P xs xs' -> Forall2 P ys ys' -> interleave xs ys = Some l ->
  exists l', interleave xs' ys' = Some l' /\ Forall2 P l l'.
Proof.
  induction xs as [|x xs IH]; intros xs' ys ys' l H1 H2 E.
  - inversion H1; subst. destruct ys as [|y ys]; [|discriminate E]. inversion H2; subst. cbn in *. injection E as <-.
    exists []. split; [reflexivity|constructor].
  - inversion H1 as [|? x' ? xs0 Px PX]; subst. destruct ys as [|y ys]; [discriminate E|].
    inversion H2 as [|? y' ? ys0 Py PY]; subst. cbn in E.
    destruct (interleave xs ys) as [l0|] eqn:E0; [|discriminate E]. injection E as <-.
    destruct (IH _ _ _ _ PX PY E0) as (l' & E' & F). exists (x' :: y' :: l'). cbn. rewrite E'. split; [reflexivity|].
    constructor; [exact Px|]. constructor; [exact Py|exact F].
Qed.

Lemma F2_rev {A} (P : A -> A -> Prop) l l' : Forall2 P l l' -> Forall2 P (rev l) (rev l').
Proof. induction 1; [constructor|]. cbn. apply Forall2_app; auto. Qed.

Lemma F2_removelast {A} (P : A -> A -> Prop) l l' : Forall2 P l l' -> Forall2 P (removelast l) (removelast l').
Proof. induction 1 as [|x y l l' H1 H2 IH]; [constructor|]. destruct H2; [constructor|]. cbn in *. constructor; auto. Qed.

Lemma mergeArray_F2 {A} (P : A -> A -> Prop) xs xs' ys ys' l :
  Forall2 P xs xs' -> Forall2 P ys ys' -> mergeArray xs ys = Some l ->
  exists l', mergeArray xs' ys' = Some l' /\ Forall2 P l l'.
Proof.
  intros H1 H2 E. unfold mergeArray in *. pose proof (F2_rev _ _ _ H1) as HR.
  destruct (rev xs) as [|z r]; [discriminate|]. inversion HR as [|? z' ? r' Pz _ E1]; subst.
  destruct (interleave (removelast xs) ys) as [l0|] eqn:E0; [|discriminate]. injection E as <-.
  destruct (interleave_F2 P _ _ _ _ _ (F2_removelast _ _ _ H1) H2 E0) as (l' & -> & F).
  eexists. split; [reflexivity|]. apply Forall2_app; auto.
Qed.

Lemma seq_snoc i n : seq i (S n) = seq i n ++ [(i + n)%nat].
Proof. apply seq_S. Qed.

Lemma removelast_snoc {A} (l : list A) x : removelast (l ++ [x]) = l.
Proof. rewrite removelast_app by discriminate. cbn. apply app_nil_r. Qed.

(** Merging the midpoints into a uniform grid doubles its resolution. *)
Lemma merge_uniform a b N : (1 <= N)%nat ->
  mergeArray (uniform a b N) (map (fun j => linpoint a b (2 * N) (2 * j + 1)) (seq 0 N)) =
  Some (map (fun m => if Nat.even m then linpoint a b N (Nat.div2 m) else linpoint a b (2 * N) (2 * Nat.div2 m + 1)) (seq 0 (2 * N)) ++ [linpoint a b N N]).
Proof.
  intro HN. unfold mergeArray, uniform; change point_at with linpoint. rewrite seq_snoc, map_app. cbn [map Nat.add]. rewrite rev_app_distr.
  cbn [rev app]. rewrite removelast_snoc.
  rewrite (interleave_seq (linpoint a b N) (fun j => linpoint a b (2 * N) (2 * j + 1)) N 0). reflexivity.
Qed.

Lemma NQ n : inject_Z (Z.of_nat (2 * n)) == 2 * inject_Z (Z.of_nat n).
Proof. rewrite Nat2Z.inj_mul, inject_Z_mult. reflexivity. Qed.
Lemma NQ1 n : inject_Z (Z.of_nat (n + 1)) == inject_Z (Z.of_nat n) + 1.
Proof. rewrite Nat2Z.inj_add, inject_Z_plus. reflexivity. Qed.
Lemma NQpos n : (1 <= n)%nat -> (0 < inject_Z (Z.of_nat n))%Q.
Proof. intro H. change 0%Q with (inject_Z 0). rewrite <- Zlt_Qlt. lia. Qed.

Lemma linpoint_double a b N i : (1 <= N)%nat -> ceq (linpoint a b N i) (linpoint a b (2 * N) (2 * i)).
Proof.
  intro H. pose proof (NQpos _ H). unfold linpoint, ceq. cbn [re im fst snd]. rewrite !NQ.
  split; field; Lqa.lra.
Qed.

Lemma uniform_double a b N : (1 <= N)%nat ->
  Forall2 ceq (map (fun m => if Nat.even m then linpoint a b N (Nat.div2 m) else linpoint a b (2 * N) (2 * Nat.div2 m + 1)) (seq 0 (2 * N)) ++ [linpoint a b N N])
    (uniform a b (2 * N)).
Proof.
  intro HN. unfold uniform; change point_at with linpoint. rewrite seq_snoc, map_app. apply Forall2_app.
  - generalize (seq 0 (2 * N)). intro l. induction l as [|m l IH]; [constructor|]. cbn [map]. constructor; [|exact IH].
    pose proof (Nat.div2_odd m) as D. rewrite <- Nat.negb_even in D. destruct (Nat.even m); cbn in D.
    + rewrite D at 2. replace (Nat.div2 m + (Nat.div2 m + 0) + 0)%nat with (2 * Nat.div2 m)%nat by lia.
      apply linpoint_double, HN.
    + rewrite D at 2. replace (Nat.div2 m + (Nat.div2 m + 0) + 1)%nat with (2 * Nat.div2 m + 1)%nat by lia. split; reflexivity.
  - constructor; [|constructor]. apply linpoint_double, HN.
Qed.

(** The new samples: N points between the midpoints of the first and the last cell. *)
Lemma first_midpoint a b N : (2 <= N)%nat ->
  ceq (linpoint a b (2 * N) 1) (midpoint (linpoint a b N 0) (linpoint a b N 1)).
Proof.
  intro H. assert (HN : ~ (inject_Z (Z.of_nat N) == 0)%Q) by (change 0%Q with (inject_Z 0); rewrite inject_Z_injective; lia).
  unfold midpoint, linpoint. split; cbn [re im fst snd];
    rewrite Nat2Z.inj_mul, inject_Z_mult; change (inject_Z (Z.of_nat 2)) with 2%Q;
    change (inject_Z (Z.of_nat 0)) with 0%Q; change (inject_Z (Z.of_nat 1)) with 1%Q; field; exact HN.
Qed.
Lemma last_midpoint a b N : (2 <= N)%nat ->
  ceq (linpoint a b (2 * N) (2 * N - 1)) (midpoint (linpoint a b N N) (linpoint a b N (N - 1))).
Proof.
  intro H. assert (HN : ~ (inject_Z (Z.of_nat N) == 0)%Q) by (change 0%Q with (inject_Z 0); rewrite inject_Z_injective; lia).
  unfold midpoint, linpoint. split; cbn [re im fst snd];
    rewrite !Nat2Z.inj_sub, Nat2Z.inj_mul by lia; unfold Z.sub; rewrite !inject_Z_plus, inject_Z_mult;
    change (inject_Z (Z.of_nat 2)) with 2%Q; change (inject_Z (- Z.of_nat 1)) with (-1)%Q; field; exact HN.
Qed.
Lemma new_samples a b N za zb : (2 <= N)%nat ->
  ceq za (midpoint (linpoint a b N 0) (linpoint a b N 1)) ->
  ceq zb (midpoint (linpoint a b N N) (linpoint a b N (N - 1))) ->
  Forall2 ceq (map (fun j => linpoint a b (2 * N) (2 * j + 1)) (seq 0 N)) (linspaceC za zb N).
Proof.
  intros HN [A1 A2] [B1 B2]. destruct N as [|[|m]]; [lia|lia|].
  pose proof (linspaceC_uniform za zb m) as U.
  assert (HS : (0 < inject_Z (Z.of_nat (S m)))%Q) by (apply NQpos; lia).
  assert (HS2 : (inject_Z (Z.of_nat (S (S m))) == inject_Z (Z.of_nat (S m)) + 1)%Q).
  { replace (S (S m)) with (S m + 1)%nat by lia. apply NQ1. }
  assert (G : Forall2 ceq (map (fun j => linpoint a b (2 * S (S m)) (2 * j + 1)) (seq 0 (S (S m))))
                (map (linpoint za zb (S m)) (seq 0 (S (S m))))).
  { generalize (seq 0 (S (S m))). intro l. induction l as [|j l IH]; [constructor|]. cbn [map]. constructor; [|exact IH].
    unfold linpoint, midpoint, ceq in *. cbn [re im fst snd] in *.
    rewrite A1, A2, B1, B2. rewrite !NQ, !NQ1, !NQ, HS2.
    assert (E : (inject_Z (Z.of_nat (S (S m) - 1)) == inject_Z (Z.of_nat (S m)))%Q) by (replace (S (S m) - 1)%nat with (S m) by lia; reflexivity).
    rewrite E. change (inject_Z (Z.of_nat 0)) with 0%Q. change (inject_Z (Z.of_nat 1)) with 1%Q.
    set (M := inject_Z (Z.of_nat (S m))) in *. set (J := inject_Z (Z.of_nat j)).
    split; field; split; Lqa.lra. }
  revert G U. generalize (map (linpoint za zb (S m)) (seq 0 (S (S m)))).
  generalize (map (fun j => linpoint a b (2 * S (S m)) (2 * j + 1)) (seq 0 (S (S m)))).
  intros l1 l2 G. generalize (linspaceC za zb (S (S m))). induction G as [|x y l l' [Hx1 Hx2] HG IH]; intros l3 U.
  - inversion U; subst. constructor.
  - inversion U as [|? z ? l3' [U1 U2] U3]; subst. constructor; [|apply IH; exact U3].
    split; [rewrite Hx1; exact U1|rewrite Hx2; exact U2].
Qed.

Lemma F2_nth {A} (P : A -> A -> Prop) l l' d : Forall2 P l l' -> forall i, (i < List.length l)%nat -> P (nth i l d) (nth i l' d).
Proof.
  induction 1 as [|x y l l' H HF IH]; intros i Hi; [cbn in Hi; lia|]. destruct i; [exact H|]. cbn in *. apply IH. lia.
Qed.
Lemma F2_length {A} (P : A -> A -> Prop) l l' : Forall2 P l l' -> List.length l = List.length l'.
Proof. induction 1; cbn; lia. Qed.

Lemma uniform_length a b N : List.length (uniform a b N) = S N.
Proof. unfold uniform; change point_at with linpoint. rewrite map_length, seq_length. reflexivity. Qed.
Lemma uniform_nth a b N i d : (i <= N)%nat -> nth i (uniform a b N) d = linpoint a b N i.
Proof.
  intro H. unfold uniform; change point_at with linpoint. rewrite (nth_indep _ d (linpoint a b N 0)) by (rewrite map_length, seq_length; lia).
  rewrite map_nth, seq_nth by lia. f_equal.
Qed.

Lemma midpoint_proper a a' b b' : ceq a a' -> ceq b b' -> ceq (midpoint a b) (midpoint a' b').
Proof. intros [A1 A2] [B1 B2]. unfold midpoint, ceq. cbn [re im fst snd]. rewrite A1, A2, B1, B2. split; reflexivity. Qed.

Lemma ceq_refl' z : ceq z z. Proof. split; reflexivity. Qed.
Lemma F2_trans l1 : forall l2 l3, Forall2 ceq l1 l2 -> Forall2 ceq l2 l3 -> Forall2 ceq l1 l3.
Proof.
  induction l1 as [|x l1 IH]; intros l2 l3 H1 H2.
  - inversion H1; subst. inversion H2; subst. constructor.
  - inversion H1 as [|? y ? l2' [P1 P2] PX]; subst. inversion H2 as [|? z ? l3' [Q1 Q2] QX]; subst. constructor.
    + split; [rewrite P1; exact Q1|rewrite P2; exact Q2].
    + exact (IH _ _ PX QX).
Qed.
Lemma F2_sym l1 l2 : Forall2 ceq l1 l2 -> Forall2 ceq l2 l1.
Proof. induction 1 as [|x y l l' [H1 H2] HF IH]; constructor; auto. split; symmetry; assumption. Qed.

Lemma pow2_pos k : (1 <= 2 ^ k)%nat.
Proof. induction k; cbn; lia. Qed.
Lemma pow2_ge k : (1 <= k)%nat -> (2 <= 2 ^ k)%nat.
Proof. intro H. destruct k; [lia|]. rewrite Nat.pow_succ_r'. pose proof (pow2_pos k). lia. Qed.

Lemma linspace_uniform a b N : (1 <= N)%nat -> Forall2 ceq (uniform a b N) (linspaceC a b (N + 1)).
Proof.
  intro H. destruct N as [|m]; [lia|]. replace (S m + 1)%nat with (S (S m)) by lia. apply linspaceC_uniform.
Qed.

(** ** The loop *)
Section Loop.
  Variables (fz : cplx -> bool) (g : cplx -> R * R) (romb : list R -> R -> R) (small : R -> bool) (prec : Z * Z).
  Hypothesis g_proper : forall z z', ceq z z' -> g z = g z'.
  Variables (a b : cplx).
  Notation d := (distance_of a b).
  Notation loop := (quad_loop fz g romb small prec d).

  Lemma map_g l l' : Forall2 ceq l l' -> map g l = map g l'.
  Proof. induction 1; cbn; f_equal; auto. Qed.

  Lemma rule_samples k l : Forall2 ceq (uniform a b (2 ^ k)) l ->
    romb (map fst (map g l)) (d / INR (2 ^ k)) = fst (rule romb g a b k) /\
    romb (map snd (map g l)) (d / INR (2 ^ k)) = snd (rule romb g a b k).
  Proof.
    intro H. apply map_g in H. rewrite <- H. unfold rule. cbn [fst snd]. rewrite !map_map. split; reflexivity.
  Qed.

  (** Invariant as long as no zero was met. *)
  Definition good (s : quad_state) : Prop :=
    (10 <= samplePts s)%nat /\ (samplePts s <= 22)%nat /\ q_found s = [] /\
    Forall2 ceq (uniform a b (2 ^ samplePts s)) (q_z s) /\
    q_func s = map g (q_z s) /\
    ((samplePts s <= 12)%nat -> q_start s = a /\ q_end s = b) /\
    ((12 < samplePts s)%nat ->
       ceq (re (q_end s) - re (q_start s), im (q_end s) - im (q_start s))%Q
           ((1 - 1 / inject_Z (Z.of_nat (2 ^ (samplePts s - 1)))) * (re b - re a),
            (1 - 1 / inject_Z (Z.of_nat (2 ^ (samplePts s - 1)))) * (im b - im a))%Q).

  Definition current (s : quad_state) : Prop := (q_real s, q_imag s) = rule romb g a b (samplePts s).
  Definition previous (s : quad_state) : Prop := (q_real s, q_imag s) = rule romb g a b (samplePts s - 1).

  Definition test (k : nat) : bool :=
    small (fst (rule romb g a b k) - fst (rule romb g a b (k - 1))) &&
    small (snd (rule romb g a b k) - snd (rule romb g a b (k - 1))).

  (** The new arrays of one round. *)
  Lemma merge_round s newZ found fuel : good s -> (12 <= samplePts s)%nat -> (samplePts s <= 21)%nat ->
    let len := List.length (q_z s) in
    let zs := midpoint (nth 0 (q_z s) (0, 0)%Q) (nth 1 (q_z s) (0, 0)%Q) in
    let ze := midpoint (nth (len - 1) (q_z s) (0, 0)%Q) (nth (len - 2) (q_z s) (0, 0)%Q) in
    genFuncArr fz prec fuel zs ze (2 ^ samplePts s) = Some (newZ, found) ->
    (found = [] \/ found <> []) ->
    exists zArr func, mergeArray (q_z s) newZ = Some zArr /\ mergeArray (q_func s) (map g newZ) = Some func /\
      func = map g zArr /\
      (found = [] -> Forall2 ceq (uniform a b (2 ^ S (samplePts s))) zArr /\
        ceq (re ze - re zs, im ze - im zs)%Q
           ((1 - 1 / inject_Z (Z.of_nat (2 ^ samplePts s))) * (re b - re a),
            (1 - 1 / inject_Z (Z.of_nat (2 ^ samplePts s))) * (im b - im a))%Q).
  Proof.
    intros (G1 & G2 & G3 & G4 & G5 & _) M1 M2 len zs ze HG _.
    set (N := (2 ^ samplePts s)%nat) in *.
    assert (HN : (2 <= N)%nat) by (apply pow2_ge; lia).
    assert (LEN : len = S N) by (unfold len; rewrite <- (F2_length _ _ _ G4), uniform_length; reflexivity).
    pose proof (genFuncArr_length _ _ _ _ _ _ _ _ HG) as LZ.
    destruct (mergeArray_some (q_z s) newZ) as (zArr & E1 & L1); [fold len; lia|].
    exists zArr, (map g zArr). split; [exact E1|]. split; [rewrite G5, mergeArray_map, E1; reflexivity|].
    split; [reflexivity|]. intros ->.
    destruct (genFuncArr_unshifted _ _ _ _ _ _ _ HG) as [-> _].
    assert (P : forall i, (i <= N)%nat -> ceq (nth i (q_z s) (0,0)%Q) (linpoint a b N i)).
    { intros i Hi. pose proof (F2_nth ceq _ _ (0,0)%Q G4 i) as X. rewrite uniform_length in X. fold N in X.
      specialize (X ltac:(lia)). rewrite uniform_nth in X by exact Hi. destruct X; split; symmetry; assumption. }
    assert (Zs : ceq zs (midpoint (linpoint a b N 0) (linpoint a b N 1))) by (apply midpoint_proper; apply P; lia).
    assert (Ze : ceq ze (midpoint (linpoint a b N N) (linpoint a b N (N - 1)))).
    { unfold ze. rewrite LEN. replace (S N - 1)%nat with N by lia. replace (S N - 2)%nat with (N - 1)%nat by lia.
      apply midpoint_proper; apply P; lia. }
    split.
    - pose proof (new_samples a b N zs ze HN Zs Ze) as NS.
      destruct (mergeArray_F2 ceq _ _ _ _ _ G4 NS (merge_uniform a b N ltac:(lia))) as (l' & E' & F).
      rewrite E' in E1. injection E1 as ->.
      rewrite Nat.pow_succ_r'. fold N.
      eapply F2_trans; [|exact F]. apply F2_sym, uniform_double. lia.
    - destruct Zs as [S1 S2], Ze as [T1 T2]. unfold ceq. cbn [re im fst snd].
      rewrite S1, S2, T1, T2. unfold midpoint, linpoint. cbn [re im fst snd].
      assert (E : (inject_Z (Z.of_nat (N - 1)) == inject_Z (Z.of_nat N) - 1)%Q).
      { replace N with (N - 1 + 1)%nat at 2 by lia. rewrite NQ1. ring. }
      rewrite E. change (inject_Z (Z.of_nat 0)) with 0%Q. change (inject_Z (Z.of_nat 1)) with 1%Q.
      assert (HP : (0 < inject_Z (Z.of_nat N))%Q) by (apply NQpos; lia).
      split; field; Lqa.lra.
  Qed.

  (** A zero once met stays reported. *)
  Lemma found_kept : forall fuel s c s', loop fuel s = QuadDone c s' -> q_found s' = [] -> q_found s = [].
  Proof.
    induction fuel as [|fuel IH]; intros s c s' H F; cbn [quad_loop] in H.
    - destruct (Nat.leb (samplePts s) MAX_SAMPLE_POINTS); [discriminate|]. injection H as <- <-. exact F.
    - destruct (Nat.leb (samplePts s) MAX_SAMPLE_POINTS); [|injection H as <- <-; exact F].
      destruct (Nat.leb (EXP_SAMPLE_POINTS + 2) (samplePts s)).
      + destruct (genFuncArr _ _ _ _ _ _) as [[nz fd]|]; [|discriminate].
        destruct (mergeArray (q_z s) nz) as [zA|]; [|discriminate].
        destruct (mergeArray (q_func s) _) as [fA|]; [|discriminate].
        destruct (small _ && small _).
        * injection H as <- <-. cbn in F. apply app_eq_nil in F. tauto.
        * apply IH in H; [|exact F]. cbn in H. apply app_eq_nil in H. tauto.
      + destruct (genFuncArr _ _ _ _ _ _) as [[nz fd]|]; [|discriminate].
        destruct (small _ && small _).
        * injection H as <- <-. cbn in F. apply app_eq_nil in F. tauto.
        * apply IH in H; [|exact F]. cbn in H. apply app_eq_nil in H. tauto.
  Qed.

  Lemma loop_result : forall fuel s c s', good s -> current s -> loop fuel s = QuadDone c s' -> q_found s' = [] ->
    good s' /\ (samplePts s <= samplePts s')%nat /\
    (forall k, (samplePts s < k)%nat -> (k < samplePts s')%nat -> test k = false) /\
    (if c then previous s' /\ (samplePts s < samplePts s')%nat /\ test (samplePts s') = true
     else samplePts s' = 22%nat /\ current s' /\ ((samplePts s < samplePts s')%nat -> test (samplePts s') = false)).
  Proof.
    induction fuel as [|fuel IH]; intros s c s' G C H F; cbn [quad_loop] in H.
    - destruct (Nat.leb (samplePts s) MAX_SAMPLE_POINTS) eqn:LE; [discriminate|]. injection H as <- <-.
      apply Nat.leb_gt in LE. unfold MAX_SAMPLE_POINTS in LE. pose proof G as (G1 & G2 & _).
      split; [exact G|]. split; [lia|]. split; [intros; lia|]. split; [lia|]. split; [exact C|intros; lia].
    - destruct (Nat.leb (samplePts s) MAX_SAMPLE_POINTS) eqn:LE.
      2:{ injection H as <- <-. apply Nat.leb_gt in LE. unfold MAX_SAMPLE_POINTS in LE. pose proof G as (G1 & G2 & _).
          split; [exact G|]. split; [lia|]. split; [intros; lia|]. split; [lia|]. split; [exact C|intros; lia]. }
      apply Nat.leb_le in LE. unfold MAX_SAMPLE_POINTS in LE.
      set (k := S (samplePts s)) in *.
      (* what remains once the new arrays are known *)
      assert (KEY : forall zs ze zArr found,
        Forall2 ceq (uniform a b (2 ^ k)) zArr -> q_found s ++ found = [] ->
        ((k <= 12)%nat -> zs = a /\ ze = b) ->
        ((12 < k)%nat -> ceq (re ze - re zs, im ze - im zs)%Q
           ((1 - 1 / inject_Z (Z.of_nat (2 ^ (k - 1)))) * (re b - re a),
            (1 - 1 / inject_Z (Z.of_nat (2 ^ (k - 1)))) * (im b - im a))%Q) ->
        (if small (romb (map fst (map g zArr)) (d / INR (2 ^ k)) - q_real s) &&
            small (romb (map snd (map g zArr)) (d / INR (2 ^ k)) - q_imag s)
         then QuadDone true (mkQuad k zs ze zArr (map g zArr) (q_real s) (q_imag s) (q_found s ++ found))
         else loop fuel (mkQuad k zs ze zArr (map g zArr) (romb (map fst (map g zArr)) (d / INR (2 ^ k)))
                   (romb (map snd (map g zArr)) (d / INR (2 ^ k))) (q_found s ++ found))) = QuadDone c s' ->
        good s' /\ (samplePts s <= samplePts s')%nat /\
        (forall k, (samplePts s < k)%nat -> (k < samplePts s')%nat -> test k = false) /\
        (if c then previous s' /\ (samplePts s < samplePts s')%nat /\ test (samplePts s') = true
         else samplePts s' = 22%nat /\ current s' /\ ((samplePts s < samplePts s')%nat -> test (samplePts s') = false))).
      { intros zs ze zArr found U FN S1 S2 E.
        destruct (rule_samples k zArr U) as [R1 R2]. rewrite R1, R2 in E.
        assert (GN : forall x y, good (mkQuad k zs ze zArr (map g zArr) x y (q_found s ++ found))).
        { intros x y. destruct G as (G1 & G2 & _). unfold good. cbn [samplePts q_found q_z q_func q_start q_end].
          split; [lia|]. split; [lia|]. split; [exact FN|]. split; [exact U|]. split; [reflexivity|]. split; assumption. }
        assert (TK : test k = small (fst (rule romb g a b k) - q_real s) && small (snd (rule romb g a b k) - q_imag s)).
        { unfold test. replace (k - 1)%nat with (samplePts s) by lia. rewrite <- C. reflexivity. }
        rewrite <- TK in E. destruct (test k) eqn:T.
        - injection E as <- <-. split; [apply GN|]. cbn [samplePts]. split; [lia|]. split; [intros; lia|].
          split; [|split; [lia|exact T]]. unfold previous. cbn [samplePts q_real q_imag].
          replace (k - 1)%nat with (samplePts s) by lia. exact C.
        - destruct (IH _ _ _ (GN _ _) ltac:(unfold current; cbn [samplePts q_real q_imag]; symmetry; apply surjective_pairing) E F)
            as (I1 & I2 & I3 & I4). cbn [samplePts] in *.
          split; [exact I1|]. split; [lia|]. split.
          { intros j J1 J2. destruct (Nat.eq_dec j k) as [->|NE]; [exact T|]. apply I3; lia. }
          destruct c; [split; [apply I4|split; [lia|apply I4]]|].
          destruct I4 as (J1 & J2 & J3). split; [exact J1|]. split; [exact J2|]. intro J4.
          destruct (Nat.eq_dec (samplePts s') k) as [EQ|NE]; [rewrite EQ; exact T|apply J3; lia]. }
      unfold EXP_SAMPLE_POINTS in H. destruct (Nat.leb (10 + 2) (samplePts s)) eqn:MG.
      + apply Nat.leb_le in MG.
        destruct (genFuncArr _ _ _ _ _ _) as [[nz fd]|] eqn:GF; [|discriminate].
        assert (DC : fd = [] \/ fd <> []) by (destruct fd; [left; reflexivity|right; discriminate]).
        destruct (merge_round s nz fd fuel G ltac:(lia) LE GF DC) as (zA & fA & E1 & E2 & E3 & E4).
        rewrite E1, E2, E3 in H.
        assert (FN : q_found s ++ fd = []).
        { destruct (small _ && small _) in H.
          - injection H as <- <-. exact F.
          - exact (found_kept _ _ _ _ H F). }
        pose proof FN as FN'. apply app_eq_nil in FN' as [_ ->]. destruct (E4 eq_refl) as [U SC].
        eapply (KEY _ _ zA []); [exact U|exact FN|intros; lia| |exact H].
        intros _. replace (k - 1)%nat with (samplePts s) by lia. exact SC.
      + apply Nat.leb_gt in MG.
        destruct (genFuncArr _ _ _ _ _ _) as [[nz fd]|] eqn:GF; [|discriminate].
        assert (FN : q_found s ++ fd = []).
        { destruct (small _ && small _) in H.
          - injection H as <- <-. exact F.
          - exact (found_kept _ _ _ _ H F). }
        pose proof FN as FN'. apply app_eq_nil in FN' as [_ ->].
        destruct (genFuncArr_unshifted _ _ _ _ _ _ _ GF) as [-> _].
        pose proof G as (_ & _ & _ & _ & _ & G6 & _). destruct (G6 ltac:(lia)) as [A B].
        eapply (KEY (q_start s) (q_end s) _ []); [|exact FN| | |exact H].
        * rewrite A, B. apply linspace_uniform, pow2_pos.
        * intros _. split; assumption.
        * intros; lia.
  Qed.

  Lemma init_good fuel s : quad_init fz g romb prec d fuel a b = Some s -> q_found s = [] -> good s /\ current s /\ samplePts s = 10%nat.
  Proof.
    unfold quad_init. intros H F.
    destruct (genFuncArr _ _ _ _ _ _) as [[z fd]|] eqn:GF; [|discriminate].
    assert (E : s = mkQuad EXP_SAMPLE_POINTS a b z (map g z) (romb (map fst (map g z)) (d / INR (2 ^ EXP_SAMPLE_POINTS)))
       (romb (map snd (map g z)) (d / INR (2 ^ EXP_SAMPLE_POINTS))) fd) by congruence.
    clear H. subst s. cbn [q_found] in F. subst fd.
    destruct (genFuncArr_unshifted _ _ _ _ _ _ _ GF) as [-> _].
    assert (U : Forall2 ceq (uniform a b (2 ^ EXP_SAMPLE_POINTS)) (linspaceC a b (2 ^ EXP_SAMPLE_POINTS + 1))) by (apply linspace_uniform, pow2_pos).
    destruct (rule_samples EXP_SAMPLE_POINTS _ U) as [R1 R2].
    split; [|split; [|reflexivity]].
    - unfold good. cbn [samplePts q_found q_z q_func q_start q_end]. split; [unfold EXP_SAMPLE_POINTS; lia|].
      split; [unfold EXP_SAMPLE_POINTS; lia|]. split; [reflexivity|].
      split; [exact U|]. split; [reflexivity|]. split; [auto|unfold EXP_SAMPLE_POINTS; intros; lia].
    - unfold current. cbn [samplePts q_real q_imag]. rewrite R1, R2. symmetry. apply surjective_pairing.
  Qed.

  (** Sample numbers in general. *)
  Definition sized (s : quad_state) : Prop :=
    (10 <= samplePts s)%nat /\ (samplePts s <= 22)%nat /\ List.length (q_z s) = S (2 ^ samplePts s) /\
    q_func s = map g (q_z s).

  Lemma loop_sized : forall fuel s, sized s -> 
    (forall c s', loop fuel s = QuadDone c s' -> sized s' /\ (samplePts s <= samplePts s')%nat) /\
    (forall e, loop fuel s <> QuadErr e).
  Proof.
    induction fuel as [|fuel IH]; intros s G; cbn [quad_loop].
    - destruct (Nat.leb _ _); [split; discriminate|]. split; [|discriminate]. intros c s' H. injection H as <- <-. split; [exact G|lia].
    - destruct (Nat.leb (samplePts s) MAX_SAMPLE_POINTS) eqn:LE.
      2:{ split; [|discriminate]. intros c s' H. injection H as <- <-. split; [exact G|lia]. }
      apply Nat.leb_le in LE. unfold MAX_SAMPLE_POINTS in LE. destruct G as (G1 & G2 & G3 & G4).
      assert (NEXT : forall zs ze zArr found r1 r2 r3 r4 (t : bool), List.length zArr = S (2 ^ S (samplePts s)) ->
        let out := if t then QuadDone true (mkQuad (S (samplePts s)) zs ze zArr (map g zArr) r1 r2 found)
          else loop fuel (mkQuad (S (samplePts s)) zs ze zArr (map g zArr) r3 r4 found) in
        (forall c s', out = QuadDone c s' -> sized s' /\ (samplePts s <= samplePts s')%nat) /\ (forall e, out <> QuadErr e)).
      { intros zs ze zArr found r1 r2 r3 r4 t L out.
        assert (SZ : forall x y, sized (mkQuad (S (samplePts s)) zs ze zArr (map g zArr) x y found)).
        { intros x y. unfold sized. cbn [samplePts q_z q_func]. split; [lia|]. split; [lia|]. split; [exact L|reflexivity]. }
        unfold out. destruct t.
        - split; [|discriminate]. intros c s' H. injection H as <- <-. split; [apply SZ|cbn; lia].
        - destruct (IH _ (SZ r3 r4)) as [I1 I2]. split; [|exact I2]. intros c s' H. destruct (I1 _ _ H) as [J1 J2].
          cbn [samplePts] in J2. split; [exact J1|lia]. }
      unfold EXP_SAMPLE_POINTS. destruct (Nat.leb (10 + 2) (samplePts s)) eqn:MG.
      + destruct (genFuncArr _ _ _ _ _ _) as [[nz fd]|] eqn:GF; [|split; discriminate].
        pose proof (genFuncArr_length _ _ _ _ _ _ _ _ GF) as LZ.
        destruct (mergeArray_some (q_z s) nz) as (zA & E1 & L1); [lia|].
        rewrite E1, G4, mergeArray_map, E1. cbn [option_map].
        apply NEXT. rewrite L1, LZ. rewrite Nat.pow_succ_r'. reflexivity.
      + destruct (genFuncArr _ _ _ _ _ _) as [[nz fd]|] eqn:GF; [|split; discriminate].
        pose proof (genFuncArr_length _ _ _ _ _ _ _ _ GF) as LZ.
        apply NEXT. lia.
  Qed.

  Lemma loop_terminates : (forall c e m, exists fuel, genFuncArr fz prec fuel c e m <> None) ->
    forall m s, (22 <= samplePts s + m)%nat -> sized s -> exists fuel, forall fuel', (fuel <= fuel')%nat -> loop fuel' s <> QuadLoops.
  Proof.
    intro HG.
    assert (HG' : forall c e m, exists fuel r, forall fuel', (fuel <= fuel')%nat -> genFuncArr fz prec fuel' c e m = Some r).
    { intros c e m. destruct (HG c e m) as [fuel H]. destruct (genFuncArr fz prec fuel c e m) as [r|] eqn:E; [|congruence].
      exists fuel, r. intros. eapply genFuncArr_mono; eassumption. }
    induction m as [|m IH]; intros s HM SZ.
    - exists 0%nat. intros fuel' _. destruct fuel'; cbn [quad_loop];
        (assert (Nat.leb (samplePts s) MAX_SAMPLE_POINTS = false) as -> by (apply Nat.leb_gt; unfold MAX_SAMPLE_POINTS; lia)); discriminate.
    - destruct (Nat.leb (samplePts s) MAX_SAMPLE_POINTS) eqn:LE.
      2:{ exists 0%nat. intros fuel' _. destruct fuel'; cbn [quad_loop]; rewrite LE; discriminate. }
      pose proof LE as LE'. apply Nat.leb_le in LE'. unfold MAX_SAMPLE_POINTS in LE'. pose proof SZ as (G1 & G2 & G3 & G4).
      destruct (Nat.leb (EXP_SAMPLE_POINTS + 2) (samplePts s)) eqn:MG.
      + set (zs := midpoint (nth 0 (q_z s) (0, 0)%Q) (nth 1 (q_z s) (0, 0)%Q)).
        set (ze := midpoint (nth (List.length (q_z s) - 1) (q_z s) (0, 0)%Q) (nth (List.length (q_z s) - 2) (q_z s) (0, 0)%Q)).
        destruct (HG' zs ze (2 ^ samplePts s)%nat) as (F1 & [nz fd] & HF).
        pose proof (genFuncArr_length _ _ _ _ _ _ _ _ (HF F1 (le_n _))) as LZ.
        destruct (mergeArray_some (q_z s) nz) as (zA & E1 & L1); [lia|].
        set (s' := mkQuad (S (samplePts s)) zs ze zA (map g zA) (romb (map fst (map g zA)) (d / INR (2 ^ S (samplePts s))))
           (romb (map snd (map g zA)) (d / INR (2 ^ S (samplePts s)))) (q_found s ++ fd)).
        destruct (IH s') as [F2 HF2].
        { unfold s'. cbn [samplePts]. lia. }
        { unfold s', sized. cbn [samplePts q_z q_func]. split; [lia|]. split; [lia|]. split; [|reflexivity].
          rewrite L1, LZ, Nat.pow_succ_r'. reflexivity. }
        exists (S (Nat.max F1 F2)). intros fuel' HF'. destruct fuel' as [|fuel']; [lia|].
        cbn [quad_loop]. rewrite LE, MG. fold zs ze. rewrite (HF fuel') by lia. rewrite E1, G4, mergeArray_map, E1. cbn [option_map].
        destruct (small _ && small _); [discriminate|]. apply HF2. lia.
      + destruct (HG' (q_start s) (q_end s) (2 ^ S (samplePts s) + 1)%nat) as (F1 & [nz fd] & HF).
        pose proof (genFuncArr_length _ _ _ _ _ _ _ _ (HF F1 (le_n _))) as LZ.
        set (s' := mkQuad (S (samplePts s)) (q_start s) (q_end s) nz (map g nz) (romb (map fst (map g nz)) (d / INR (2 ^ S (samplePts s))))
           (romb (map snd (map g nz)) (d / INR (2 ^ S (samplePts s)))) (q_found s ++ fd)).
        destruct (IH s') as [F2 HF2].
        { unfold s'. cbn [samplePts]. lia. }
        { unfold s', sized. cbn [samplePts q_z q_func]. split; [lia|]. split; [lia|]. split; [|reflexivity]. lia. }
        exists (S (Nat.max F1 F2)). intros fuel' HF'. destruct fuel' as [|fuel']; [lia|].
        cbn [quad_loop]. rewrite LE, MG. rewrite (HF fuel') by lia.
        destruct (small _ && small _); [discriminate|]. apply HF2. lia.
  Qed.
End Loop.
