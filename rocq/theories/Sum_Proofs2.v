(** * Proofs about the summation estimator: caches and phases *)
From Coq Require Import Reals.
From Verif Require Import PyBase Cache_Proofs Sum_Model Sum_Spec Angle_Proofs Sum_Proofs.
From Coq Require Import Lra Lqa.
Open Scope Z_scope.

(** ** The code's refinement factor is at least 100; 3 is all that is needed below *)
Lemma refinement_large deltaPhi : (0 < deltaPhi)%R ->
  forall i p, at_least deltaPhi p = true -> (3 <= refinement deltaPhi (S i) p)%nat.
Proof.
  intros HD i p. unfold at_least, refinement. destruct (Rle_dec deltaPhi (Rabs p)) as [H|H]; [intros _|discriminate].
  set (x := (INR (S i) * 100 * Rabs p / deltaPhi)%R).
  assert (Hx : (100 <= x)%R).
  { unfold x. apply Rmult_le_reg_r with deltaPhi; [exact HD|].
    unfold Rdiv. rewrite Rmult_assoc, Rinv_l, Rmult_1_r by Lra.lra.
    rewrite S_INR. pose proof (pos_INR i). Lra.nra. }
  assert (HI : (100 <= Int_part x)%Z).
  { destruct (base_Int_part x) as [B1 B2]. apply Z.lt_succ_r. apply lt_IZR. unfold Z.succ.
    rewrite plus_IZR. Lra.lra. }
  lia.
Qed.

(** ** Uniform samples *)
Lemma chain_Forall2 (P : cplx -> cplx -> Prop)
  (P_proper : forall a b a' b', ceq a a' -> ceq b b' -> P a b -> P a' b') l :
  forall l', Forall2 ceq l l' -> chain P l -> chain P l'.
Proof.
  induction l as [|a l IH]; intros l' F C; inversion F as [|? b ? m H1 H2]; subst; [exact I|].
  destruct l as [|c l]; inversion H2 as [|? e ? m' H3 H4]; subst; [exact I|].
  destruct C as [C1 C2]. split; [eapply P_proper; eauto|]. apply IH; [exact H2|exact C2].
Qed.

Lemma chain_seq {B} (P : B -> B -> Prop) (g : nat -> B) n : forall i,
  (forall j, (i <= j)%nat -> (S j < i + n)%nat -> P (g j) (g (S j))) -> chain P (map g (seq i n)).
Proof.
  induction n as [|n IH]; intros i H; [exact I|].
  destruct n as [|n]; [exact I|].
  split; [apply H; lia|]. apply (IH (S i)). intros j H1 H2. apply H; lia.
Qed.

Lemma steps_pos m : (0 < inject_Z (Z.of_nat (S m)))%Q.
Proof. change 0%Q with (inject_Z 0). rewrite <- Zlt_Qlt. lia. Qed.

Lemma linpoint_first a b m : ceq (linpoint a b (S m) 0) a.
Proof.
  pose proof (steps_pos m) as H.
  assert (N : ~ (inject_Z (Z.of_nat (S m)) == 0)%Q) by Lqa.lra.
  unfold linpoint, ceq. split; unfold re, im; cbn [fst snd]; change (inject_Z (Z.of_nat 0)) with 0%Q; field; exact N.
Qed.

Lemma linpoint_last a b m : ceq (linpoint a b (S m) (S m)) b.
Proof.
  pose proof (steps_pos m) as H.
  assert (N : ~ (inject_Z (Z.of_nat (S m)) == 0)%Q) by Lqa.lra.
  unfold linpoint, ceq. split; unfold re, im; cbn [fst snd]; field; exact N.
Qed.

Lemma linspaceC_uniform a b m :
  Forall2 ceq (map (linpoint a b (S m)) (seq 0 (S (S m)))) (linspaceC a b (S (S m))).
Proof.
  cbn [linspaceC]. cbn [seq map]. constructor; [apply linpoint_first|].
  change (linpoint a b (S m) 1 :: map (linpoint a b (S m)) (seq 2 m)) with (map (linpoint a b (S m)) (seq 1 (S m))).
  rewrite seq_S, map_app. apply Forall2_app.
  - clear. generalize (map (linpoint a b (S m)) (seq 1 m)). intro l. induction l; constructor; auto. split; reflexivity.
  - cbn [map]. constructor; [|constructor]. replace (1 + m)%nat with (S m) by lia. apply linpoint_last.
Qed.

Definition axes (coord other : cplx -> Q) : Prop := (coord = re /\ other = im) \/ (coord = im /\ other = re).

Lemma on_line_proper coord other level h : axes coord other ->
  forall a b a' b', ceq a a' -> ceq b b' -> on_line coord other level h a b -> on_line coord other level h a' b'.
Proof.
  intros [[-> ->]|[-> ->]] a b a' b' [A1 A2] [B1 B2] (H1 & H2 & H3 & H4); unfold on_line;
    rewrite <- A1, <- A2, <- B1, <- B2; repeat split; assumption.
Qed.

Lemma linspaceC_on_line coord other level h a b n : axes coord other ->
  on_line coord other level (h * inject_Z (Z.of_nat (n - 1)))%Q a b -> (2 <= n)%nat ->
  chain (on_line coord other level h) (linspaceC a b n).
Proof.
  intros AX (H1 & H2 & H3 & H4) Hn. destruct n as [|[|m]]; [lia|lia|].
  replace (S (S m) - 1)%nat with (S m) in H4 by lia.
  apply (chain_Forall2 _ (on_line_proper _ _ _ _ AX) _ _ (linspaceC_uniform a b m)).
  apply chain_seq. intros j _ Hj. pose proof (steps_pos m) as HP.
  set (s := inject_Z (Z.of_nat (S m))) in *.
  assert (N : ~ (s == 0)%Q) by Lqa.lra.
  assert (HJ : (inject_Z (Z.of_nat (S j)) == inject_Z (Z.of_nat j) + 1)%Q).
  { rewrite Nat2Z.inj_succ. unfold Z.succ. rewrite inject_Z_plus. reflexivity. }
  assert (D : forall (x y : Q), (x + inject_Z (Z.of_nat (S j)) / s * y - (x + inject_Z (Z.of_nat j) / s * y) == y / s)%Q).
  { intros x y. rewrite HJ. field. exact N. }
  assert (HS : forall y, (0 < y)%Q -> (y <= h * s)%Q -> (0 < y / s)%Q /\ (y / s <= h)%Q).
  { intros y Y1 Y2. split.
    - apply Qlt_shift_div_l; [exact HP|]. Lqa.lra.
    - apply Qle_shift_div_r; [exact HP|exact Y2]. }
  assert (HL : forall x y i, (x == level)%Q -> (y == level)%Q ->
    (x + inject_Z (Z.of_nat i) / s * (y - x) == level)%Q).
  { intros x y i -> ->. field. exact N. }
  destruct AX as [[-> ->]|[-> ->]]; unfold on_line, linpoint, re, im in *; cbn [fst snd] in *; fold s.
  - rewrite !HL by assumption. rewrite D. destruct (HS _ H3 H4). repeat split; (reflexivity || assumption).
  - rewrite !HL by assumption. rewrite D. destruct (HS _ H3 H4). repeat split; (reflexivity || assumption).
Qed.

Lemma on_line_weaken coord other level h h' a b : (h <= h')%Q ->
  on_line coord other level h a b -> on_line coord other level h' a b.
Proof. intros L (H1 & H2 & H3 & H4). repeat split; try assumption. Lqa.lra. Qed.

Lemma chain_weaken {B} (P Q : B -> B -> Prop) (H : forall a b, P a b -> Q a b) l : chain P l -> chain Q l.
Proof.
  induction l as [|a l IH]; intro C; [exact I|]. destruct l as [|b l]; [exact I|].
  destruct C as [C1 C2]. split; [apply H, C1|apply IH, C2].
Qed.

Lemma on_line_subdivide coord other level h : axes coord other -> forall a b n,
  on_line coord other level h a b -> chain (on_line coord other level h) (linspaceC a b n).
Proof.
  intros AX a b n H. destruct n as [|[|m]]; [exact I|exact I|].
  set (s := inject_Z (Z.of_nat (S (S m) - 1))).
  assert (HS : (1 <= s)%Q).
  { unfold s. change 1%Q with (inject_Z 1). rewrite <- Zle_Qle. lia. }
  destruct H as (H1 & H2 & H3 & H4).
  apply (chain_weaken (on_line coord other level (h / s))).
  - intros x y. apply on_line_weaken. apply Qle_shift_div_r; [Lqa.lra|]. Lqa.nra.
  - apply linspaceC_on_line; [exact AX| |lia]. fold s. repeat split; try assumption.
    assert (E : (h / s * s == h)%Q) by (field; Lqa.lra). rewrite E. exact H4.
Qed.

(** ** Keys of the line caches *)
Lemma okey_iff a b : okey_eqb a b = true <-> (fst a == fst b)%Q /\ snd a = snd b.
Proof. unfold okey_eqb. rewrite andb_true_iff, Qeq_bool_iff, Z.eqb_eq. reflexivity. Qed.
Lemma okey_t a b c : okey_eqb a b = true -> okey_eqb b c = true -> okey_eqb a c = true.
Proof. rewrite !okey_iff. intros [A1 A2] [B1 B2]. split; [rewrite A1; exact B1|congruence]. Qed.
Lemma okey_s a b : okey_eqb a b = okey_eqb b a.
Proof. apply eq_iff_eq_true. rewrite !okey_iff. split; intros [A B]; split; symmetry; assumption. Qed.
Lemma okey_r a : okey_eqb a a = true.
Proof. apply okey_iff. split; reflexivity. Qed.
Lemma side_eqb_iff a b : side_eqb a b = true <-> a = b.
Proof. destruct a, b; cbn; split; congruence. Qed.
Lemma skey_iff a b : skey_eqb a b = true <-> (fst a == fst b)%Q /\ snd a = snd b.
Proof. unfold skey_eqb. rewrite andb_true_iff, Qeq_bool_iff, side_eqb_iff. reflexivity. Qed.
Lemma skey_t a b c : skey_eqb a b = true -> skey_eqb b c = true -> skey_eqb a c = true.
Proof. rewrite !skey_iff. intros [A1 A2] [B1 B2]. split; [rewrite A1; exact B1|congruence]. Qed.
Lemma skey_s a b : skey_eqb a b = skey_eqb b a.
Proof. apply eq_iff_eq_true. rewrite !skey_iff. split; intros [A B]; split; symmetry; assumption. Qed.
Lemma skey_r a : skey_eqb a a = true.
Proof. apply skey_iff. split; reflexivity. Qed.

Lemma cached_store {A} level order s1 s2 (v : entry A) c level' order' t s :
  dget okey_eqb (level, order) c <> None ->
  cached (storeCache level order s1 s2 v c) level' order' t s =
  if okey_eqb (level', order') (level, order) then
    if skey_eqb (t, s) (s2, EndSide) then Some v
    else if skey_eqb (t, s) (s1, StartSide) then Some v else cached c level' order' t s
  else cached c level' order' t s.
Proof.
  intro H. unfold cached, storeCache. destruct (dget okey_eqb (level, order) c) as [d|] eqn:E; [|congruence].
  rewrite (dget_dset okey_eqb okey_t okey_s).
  destruct (okey_eqb (level', order') (level, order)) eqn:K; [|reflexivity].
  rewrite !(dget_dset skey_eqb skey_t skey_s).
  rewrite (dget_cong okey_eqb okey_t okey_s _ _ c K), E. reflexivity.
Qed.

Lemma level_store {A} level order s1 s2 (v : entry A) c key :
  dget okey_eqb key (storeCache level order s1 s2 v c) = None <-> dget okey_eqb key c = None.
Proof.
  unfold storeCache. destruct (dget okey_eqb (level, order) c) as [d|] eqn:E; [|reflexivity].
  rewrite (dget_dset okey_eqb okey_t okey_s). destruct (okey_eqb key (level, order)) eqn:K; [|reflexivity].
  rewrite (dget_cong okey_eqb okey_t okey_s _ _ c K), E. split; discriminate.
Qed.

(** ** One request *)
Section Request.
  Context {A : Type} (azero : A) (aadd : A -> A -> A) (aopp : A -> A).
  Variables (fz : cplx -> bool) (dphase : cplx -> cplx -> A) (large : A -> bool)
    (factor : nat -> A -> nat) (close : cplx -> cplx -> bool) (numPts : nat) (precision : Z * Z).
  Notation retrieve := (retrieveCached azero aadd aopp fz dphase large factor close numPts precision).
  Notation genPhi := (genPhiArr azero fz dphase large factor close numPts precision).
  Notation sline := (sumLine azero aadd aopp fz dphase large factor close numPts precision).
  Notation sum := (asum azero aadd).

  Lemma retrieve_miss end_test coord point level fuel order t1 t2 c : (t1 < t2)%Q ->
    dget okey_eqb (level, order) c = None ->
    retrieve end_test coord point level fuel order t1 t2 c =
    match genPhi fuel order (point t1) (point t2) with
    | GenErr e => LineErr e
    | GenLoops => LineLoops
    | Gen zs phis found =>
        LineOk (storeCache level order t1 t2 (zs, phis) (dset okey_eqb (level, order) [] c)) found (sum phis)
    end.
  Proof.
    intros L H. unfold retrieveCached. rewrite H.
    assert (Qltb t1 t2 = true) as -> by (apply Qltb_true, L).
    assert (Qle_bool t1 t2 = true) as -> by (apply Qle_bool_iff; Lqa.lra). reflexivity.
  Qed.

  (** Swapping the end points of a line. *)
  Lemma retrieve_swap end_test coord point level fuel order t1 t2 c :
    (t1 < t2)%Q ->
    retrieve end_test coord point level fuel order t2 t1 c =
    match retrieve end_test coord point level fuel order t1 t2 c with
    | LineOk c' found phi => LineOk c' found (aopp phi)
    | r => r
    end.
  Proof.
    intro L. unfold retrieveCached.
    assert (Qltb t1 t2 = true) as -> by (apply Qltb_true, L).
    assert (Qltb t2 t1 = false) as -> by (apply Qltb_false; Lqa.lra).
    assert (Qle_bool t1 t2 = true) as -> by (apply Qle_bool_iff; Lqa.lra).
    assert (Qle_bool t2 t1 = false) as -> by (apply Qleb_false; exact L).
    destruct (dget okey_eqb _ c) as [d|].
    2:{ destruct (genPhi _ _ _ _); reflexivity. }
    destruct (dget skey_eqb (t1, StartSide) d) as [v|].
    { destruct (Nat.ltb _ _); [destruct (genPhi _ _ _ _); reflexivity|].
      destruct (last_index _ _); reflexivity. }
    destruct (dget skey_eqb (t2, EndSide) d) as [v|].
    { destruct (Nat.ltb _ _); [destruct (genPhi _ _ _ _); reflexivity|].
      destruct (first_index _ _); reflexivity. }
    destruct (genPhi _ _ _ _); reflexivity.
  Qed.
End Request.
