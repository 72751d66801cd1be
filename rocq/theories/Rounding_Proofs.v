From Verif Require Import PyBase Rounding_Model Rounding_Spec.
Open Scope Q_scope.

(** Specification: [z] is a nearest integer to [x], even in case of a tie. *)
Definition nearest_even (x : Q) (z : Z) : Prop :=
  Qabs (x - inject_Z z) <= 1 # 2 /\
  (Qabs (x - inject_Z z) == 1 # 2 -> Z.even z = true).

(** [v] is a whole multiple of 10^-p. *)
Definition multiple_of (p : Z) (v : Q) : Prop := exists k : Z, v == inject_Z k * pow10 (- p).

Lemma inject_Z_succ n : inject_Z (n + 1) == inject_Z n + 1.
Proof. rewrite inject_Z_plus. reflexivity. Qed.

Lemma floor_bounds x : inject_Z (Qfloor x) <= x /\ x < inject_Z (Qfloor x) + 1.
Proof.
  split; [apply Qfloor_le|]. rewrite <- inject_Z_succ. apply Qlt_floor.
Qed.

Lemma Qabs_le_iff x y : Qabs x <= y <-> - y <= x /\ x <= y.
Proof. apply Qabs_Qle_condition. Qed.

Lemma round_half_even_nearest x : nearest_even x (round_half_even x).
Proof.
  unfold nearest_even, round_half_even.
  destruct (floor_bounds x) as [L U].
  set (n := Qfloor x) in *.
  destruct (Qltb_spec (x - inject_Z n) (1 # 2)) as [A|A].
  { split.
    - apply Qabs_le_iff. lra.
    - rewrite Qabs_pos by lra. intro H. lra. }
  destruct (Qltb_spec (1 # 2) (x - inject_Z n)) as [B|B].
  { rewrite inject_Z_succ. split.
    - apply Qabs_le_iff. lra.
    - rewrite Qabs_neg by lra. intro H. lra. }
  destruct (Z.even n) eqn:E.
  { split; [apply Qabs_le_iff; lra | intros _; exact E]. }
  rewrite inject_Z_succ. split; [apply Qabs_le_iff; lra|].
  intros _. rewrite Z.even_add, E. reflexivity.
Qed.

Lemma nearest_even_unique x y a b :
  x == y -> nearest_even x a -> nearest_even y b -> a = b.
Proof.
  intros E [A1 A2] [B1 B2]. 
  apply Qabs_le_iff in A1. apply Qabs_le_iff in B1.
  assert (D : inject_Z (a - b) <= 1 /\ -(1) <= inject_Z (a - b)).
  { unfold Z.sub. rewrite inject_Z_plus, inject_Z_opp. split; lra. }
  destruct D as [D1 D2].
  replace 1 with (inject_Z 1) in D1 by reflexivity. rewrite <- Zle_Qle in D1.
  replace (-(1)) with (inject_Z (-1)) in D2 by reflexivity. rewrite <- Zle_Qle in D2.
  destruct (Z.eq_dec a b) as [|N]; [assumption|exfalso].
  assert (C : (a = b + 1 \/ b = a + 1)%Z) by lia.
  destruct C as [C|C].
  - subst a. rewrite inject_Z_succ in *.
    assert (Ev1 : Z.even (b + 1) = true).
    { apply A2. rewrite Qabs_neg by lra. lra. }
    assert (Ev2 : Z.even b = true).
    { apply B2. rewrite Qabs_pos by lra. lra. }
    rewrite Z.even_add, Ev2 in Ev1. discriminate.
  - subst b. rewrite inject_Z_succ in *.
    assert (Ev1 : Z.even a = true).
    { apply A2. rewrite Qabs_pos by lra. lra. }
    assert (Ev2 : Z.even (a + 1) = true).
    { apply B2. rewrite Qabs_neg by lra. lra. }
    rewrite Z.even_add, Ev1 in Ev2. discriminate.
Qed.

Lemma round_half_even_compat x y : x == y -> round_half_even x = round_half_even y.
Proof.
  intro E. eapply nearest_even_unique; [exact E| |]; apply round_half_even_nearest.
Qed.

Lemma round_half_even_int k x : x == inject_Z k -> round_half_even x = k.
Proof.
  intro E. eapply (nearest_even_unique x x); [reflexivity|apply round_half_even_nearest|].
  split.
  - rewrite E. setoid_replace (inject_Z k - inject_Z k) with 0 by ring. discriminate.
  - rewrite E. setoid_replace (inject_Z k - inject_Z k) with 0 by ring. discriminate.
Qed.

(** An integer strictly within 1/2 is the rounding. *)
Lemma round_half_even_close k x : Qabs (x - inject_Z k) < 1 # 2 -> round_half_even x = k.
Proof.
  intro H. eapply (nearest_even_unique x x); [reflexivity|apply round_half_even_nearest|].
  split; [apply Qlt_le_weak; exact H|]. intro C. rewrite C in H. discriminate.
Qed.

Lemma round_half_even_mono x y : x <= y -> (round_half_even x <= round_half_even y)%Z.
Proof.
  intro L.
  destruct (Qeq_dec x y) as [E|N].
  { rewrite (round_half_even_compat _ _ E). lia. }
  destruct (round_half_even_nearest x) as [A _].
  destruct (round_half_even_nearest y) as [B _].
  apply Qabs_le_iff in A. apply Qabs_le_iff in B.
  apply Z.le_ngt. intro C.
  assert (C' : (round_half_even y + 1 <= round_half_even x)%Z) by lia.
  rewrite Zle_Qle, inject_Z_succ in C'.
  apply N. lra.
Qed.

(** ** Rounding to p decimals *)
Lemma round_dec_val p x :
  round_dec p x == inject_Z (round_half_even (x * pow10 p)) * pow10 (- p).
Proof. unfold round_dec. apply Qred_correct. Qed.

Lemma round_dec_compat p x y : x == y -> round_dec p x = round_dec p y.
Proof.
  intro E. unfold round_dec. f_equal.
  rewrite (round_half_even_compat (x * pow10 p) (y * pow10 p)); [reflexivity|].
  rewrite E. reflexivity.
Qed.

Lemma scale_unscale p x : x * pow10 p * pow10 (- p) == x.
Proof.
  rewrite <- Qmult_assoc, pow10_inv. ring.
Qed.
Lemma unscale_scale p x : x * pow10 (- p) * pow10 p == x.
Proof.
  rewrite <- Qmult_assoc, (Qmult_comm (pow10 (-p))), pow10_inv. ring.
Qed.

Lemma round_dec_multiple p x : multiple_of p (round_dec p x).
Proof. eexists. apply round_dec_val. Qed.

Lemma round_dec_error p x : Qabs (x - round_dec p x) <= (1 # 2) * pow10 (- p).
Proof.
  rewrite round_dec_val.
  destruct (round_half_even_nearest (x * pow10 p)) as [A _].
  set (k := inject_Z _) in *.
  assert (E : x - k * pow10 (- p) == (x * pow10 p - k) * pow10 (- p)).
  { rewrite <- (scale_unscale p x) at 1. ring. }
  rewrite E, Qabs_Qmult.
  rewrite (Qabs_pos (pow10 (- p))) by (apply Qlt_le_weak, pow10_pos).
  apply Qmult_le_compat_r; [exact A|apply Qlt_le_weak, pow10_pos].
Qed.

Lemma round_dec_fix p v : multiple_of p v -> round_dec p v == v.
Proof.
  intros [k E]. rewrite round_dec_val.
  rewrite (round_half_even_int k).
  - rewrite E. reflexivity.
  - rewrite E. apply unscale_scale.
Qed.

Lemma round_dec_idem p x : round_dec p (round_dec p x) = round_dec p x.
Proof.
  unfold round_dec at 1 3. apply Qred_complete.
  rewrite <- (round_dec_val p (round_dec p x)).
  rewrite (round_dec_fix p _ (round_dec_multiple p x)). apply round_dec_val.
Qed.

Lemma round_dec_mono p x y : x <= y -> round_dec p x <= round_dec p y.
Proof.
  intro L. rewrite !round_dec_val.
  apply Qmult_le_compat_r; [|apply Qlt_le_weak, pow10_pos].
  rewrite <- Zle_Qle. apply round_half_even_mono.
  apply Qmult_le_compat_r; [exact L|apply Qlt_le_weak, pow10_pos].
Qed.

Lemma round_dec_separates p x y :
  pow10 (- p) < Qabs (x - y) -> ~ round_dec p x == round_dec p y.
Proof.
  intros H E.
  pose proof (round_dec_error p x) as A. pose proof (round_dec_error p y) as B.
  rewrite E in A.
  apply Qabs_le_iff in A. apply Qabs_le_iff in B.
  assert (C : Qabs (x - y) <= pow10 (- p)); [|lra].
  apply Qabs_le_iff. lra.
Qed.

(** Ties go to the even multiple. *)
Lemma round_dec_tie p x (k : Z) :
  x == (inject_Z k + (1 # 2)) * pow10 (- p) ->
  round_dec p x == inject_Z (if Z.even k then k else (k + 1)%Z) * pow10 (- p).
Proof.
  intro E. rewrite round_dec_val.
  assert (Es : x * pow10 p == inject_Z k + (1 # 2)) by (rewrite E; apply unscale_scale).
  assert (H : round_half_even (x * pow10 p) = if Z.even k then k else (k + 1)%Z).
  { eapply (nearest_even_unique (x * pow10 p) (x * pow10 p));
      [reflexivity|apply round_half_even_nearest|].
    destruct (Z.even k) eqn:Ev.
    - split; [|intros _; exact Ev]. rewrite Es. apply Qabs_le_iff. lra.
    - split.
      + rewrite Es, inject_Z_succ. apply Qabs_le_iff. lra.
      + intros _. rewrite Z.even_add, Ev. reflexivity. }
  rewrite H. reflexivity.
Qed.

Lemma round_dec_Qred p x : Qred (round_dec p x) = round_dec p x.
Proof. unfold round_dec. apply Qred_complete, Qred_correct. Qed.

Lemma roundRoot_idem r p : roundRoot (roundRoot r p) p = roundRoot r p.
Proof.
  unfold roundRoot, re, im. cbn [fst snd]. rewrite !round_dec_idem. reflexivity.
Qed.

Lemma Qeq_refl_of (a b : Q) : a = b -> a == b.
Proof. intros ->. reflexivity. Qed.

Lemma round_half_even_best x (k : Z) :
  Qabs (x - inject_Z (round_half_even x)) <= Qabs (x - inject_Z k).
Proof.
  destruct (round_half_even_nearest x) as [A _].
  destruct (Z.eq_dec k (round_half_even x)) as [->|N]; [apply Qle_refl|].
  apply Qle_trans with (1 # 2); [exact A|].
  apply Qabs_le_iff in A.
  assert (C : (k + 1 <= round_half_even x \/ round_half_even x + 1 <= k)%Z) by lia.
  destruct C as [C|C]; rewrite Zle_Qle, inject_Z_succ in C.
  - rewrite Qabs_pos by lra. lra.
  - rewrite Qabs_neg by lra. lra.
Qed.

Lemma round_dec_nearest p x (k : Z) :
  Qabs (x - round_dec p x) <= Qabs (x - inject_Z k * pow10 (- p)).
Proof.
  rewrite round_dec_val.
  assert (E : forall m : Z, x - inject_Z m * pow10 (- p) == (x * pow10 p - inject_Z m) * pow10 (- p)).
  { intro m. rewrite <- (scale_unscale p x) at 1. ring. }
  rewrite (E k), (E (round_half_even _)), !Qabs_Qmult.
  apply Qmult_le_compat_r; [apply round_half_even_best|apply Qabs_nonneg].
Qed.

(** ** The computed rounding is the specified one. *)
Lemma scaled_distance p x (m : Z) :
  Qabs (x - inject_Z m * pow10 (- p)) == Qabs (x * pow10 p - inject_Z m) * pow10 (- p).
Proof.
  assert (E : x - inject_Z m * pow10 (- p) == (x * pow10 p - inject_Z m) * pow10 (- p)).
  { rewrite <- (scale_unscale p x) at 1. ring. }
  rewrite E, Qabs_Qmult, (Qabs_pos (pow10 (- p))) by (apply Qlt_le_weak, pow10_pos). reflexivity.
Qed.

Lemma nearest_even_of_best x (k : Z) :
  (forall j : Z, j <> k -> Qabs (x - inject_Z k) <= Qabs (x - inject_Z j) /\
     (Qabs (x - inject_Z k) == Qabs (x - inject_Z j) -> Z.even k = true)) ->
  nearest_even x k.
Proof.
  intro H. destruct (H (k + 1)%Z ltac:(lia)) as [A A']. destruct (H (k + -1)%Z ltac:(lia)) as [B B'].
  rewrite inject_Z_plus in A, A', B, B'. change (inject_Z 1) with 1 in *. change (inject_Z (-1)) with (-(1)) in *.
  set (n := inject_Z k) in *. unfold nearest_even. fold n.
  revert A A' B B'. apply Qabs_case; intros C; apply (Qabs_case (x - (n + 1))); intros D;
    apply (Qabs_case (x - (n + - (1)))); intros F A A' B B';
    (split; [lra|]); intro T; first [apply A'; lra | apply B'; lra].
Qed.

Lemma rounds_to_iff p x y : rounds_to p x y <-> y = round_dec p x.
Proof.
  split.
  - intros [HQ [k [Ek Hk]]].
    assert (N : nearest_even (x * pow10 p) k).
    { apply nearest_even_of_best. intros j Hj. destruct (Hk j Hj) as [A B].
      rewrite Ek in A, B. rewrite !scaled_distance in A, B. split.
      - apply Qmult_lt_0_le_reg_r with (pow10 (- p)); [apply pow10_pos|exact A].
      - intro T. apply B. rewrite T. reflexivity. }
    rewrite <- HQ. unfold round_dec. apply Qred_complete. rewrite Ek.
    rewrite (nearest_even_unique (x * pow10 p) (x * pow10 p) (round_half_even (x * pow10 p)) k);
      [reflexivity|reflexivity|apply round_half_even_nearest|exact N].
  - intros ->. split; [apply round_dec_Qred|]. exists (round_half_even (x * pow10 p)).
    split; [apply round_dec_val|]. intros j Hj. split; [apply round_dec_nearest|].
    rewrite round_dec_val, !scaled_distance. intro T.
    apply Qmult_inj_r in T; [|pose proof (pow10_pos (- p)); lra].
    destruct (round_half_even_nearest (x * pow10 p)) as [A B]. apply B.
    set (X := x * pow10 p) in *. set (k := round_half_even X) in *.
    apply Qle_antisym; [exact A|].
    assert (C : (j + 1 <= k \/ k + 1 <= j)%Z) by lia.
    revert T A. apply Qabs_case; intros F; apply (Qabs_case (X - inject_Z j)); intros G T A;
      destruct C as [C|C]; rewrite Zle_Qle, inject_Z_succ in C; lra.
Qed.

Lemma rounded_iff p r s : rounded p r s <-> s = roundRoot r p.
Proof.
  unfold rounded. rewrite !rounds_to_iff. unfold roundRoot. destruct s as [[a b] o]. unfold re, im. cbn [fst snd].
  split; [intros [-> [-> ->]]; reflexivity|intro H; injection H as -> -> ->; auto].
Qed.

Lemma rounded_self p r : rounded p r (roundRoot r p).
Proof. apply rounded_iff. reflexivity. Qed.

Lemma rounded_ex p r : exists s, rounded p r s.
Proof. exists (roundRoot r p). apply rounded_self. Qed.
