(** * The quadrature estimator along the sides of a rectangle *)
From Coq Require Import Reals Qreals.
From Verif Require Import PyBase Refine_Model Zeros_Spec Sum_Model Sum_Spec Sum_Proofs4 Quad_Model Quad_Spec Quad_Proofs Quad_Proofs2
  Arg_Spec Moment_Spec Arg_Proofs Arg_Proofs2 Romb_Proofs Moment_Proofs Moment_Proofs2.
From Coq Require Import Lqa Lra.
Open Scope R_scope.

Lemma Q2R_inject n : Q2R (inject_Z (Z.of_nat n)) = INR n. Proof. symmetry. apply INR_Q2R. Qed.

Lemma real_point_put h l t : real_point (mkpoint h l t) = put h (Q2R t) (Q2R l).
Proof. destruct h; reflexivity. Qed.

Lemma point_at_put h l a b N i : (1 <= N)%nat ->
  real_point (point_at (mkpoint h l a) (mkpoint h l b) N i) = put h (Q2R a + INR i / INR N * (Q2R b - Q2R a)) (Q2R l).
Proof.
  intro HN. pose proof (NQpos N HN) as P.
  assert (P' : ~ (inject_Z (Z.of_nat N) == 0)%Q) by (intro C; rewrite C in P; Lqa.lra).
  assert (E : forall x y, Q2R (x + inject_Z (Z.of_nat i) / inject_Z (Z.of_nat N) * (y - x)) = Q2R x + INR i / INR N * (Q2R y - Q2R x)).
  { intros x y. rewrite Q2R_plus, Q2R_mult, Q2R_div, Q2R_minus, !Q2R_inject by exact P'. reflexivity. }
  unfold point_at, real_point, put. destruct h; cbn [mkpoint re im fst snd]; rewrite !E; f_equal; ring.
Qed.

Lemma distance_side h l a b : (a <= b)%Q -> distance (mkpoint h l a) (mkpoint h l b) = Q2R b - Q2R a.
Proof.
  intro H. apply Qle_Rle in H. unfold distance. destruct h; cbn [mkpoint re im fst snd]; rewrite !Q2R_minus, Rminus_eq_0;
    unfold Rsqr; [replace (_ + 0 * 0) with (Rsqr (Q2R b - Q2R a)) by (unfold Rsqr; ring)|
                  replace (0 * 0 + _) with (Rsqr (Q2R b - Q2R a)) by (unfold Rsqr; ring)]; apply sqrt_Rsqr; lra.
Qed.

Section Side.
  Variables (G : cR -> cR) (h : bool) (l a b : Q) (M : R).
  Hypothesis ab : (a < b)%Q.
  Hypothesis M0 : 0 <= M.
  Notation A := (mkpoint h l a).
  Notation B := (mkpoint h l b).

  Definition err (k : nat) : R := M * ((Q2R b - Q2R a) * (Q2R b - Q2R a) * (Q2R b - Q2R a)) / (3 * 4 ^ k).

  Lemma part_error part Y k :
    smooth (Q2R a) (Q2R b) M (fun t => part (G (put h t (Q2R l)))) Y ->
    Rabs (romberg (map (fun z => part (called G z)) (uniform A B (2 ^ k))) (distance A B / INR (2 ^ k)) - (Y (Q2R b) - Y (Q2R a))) <= err k.
  Proof.
    intro S. pose proof (Qlt_Rlt _ _ ab) as H. rewrite distance_side by (apply Qlt_le_weak, ab). rewrite pow2_R.
    apply (romberg_error (Q2R a) (Q2R b) M (fun t => part (G (put h t (Q2R l)))) Y k S); [lra|exact M0| |].
    - intros j Hj.
      assert (E : nth j (map (fun z => part (called G z)) (uniform A B (2 ^ k))) 0 =
        part (called G (point_at A B (2 ^ k) j))).
      { assert (L : (j < List.length (map (fun z => part (called G z)) (uniform A B (2 ^ k))))%nat).
        { rewrite map_length, uniform_length. lia. }
        rewrite (nth_indep _ 0 (part (called G (0, 0)%Q)) L), (map_nth (fun z => part (called G z))).
        unfold uniform. rewrite (nth_indep _ (0, 0)%Q (point_at A B (2 ^ k) 0)) by (rewrite map_length, seq_length; lia).
        rewrite map_nth, seq_nth by lia. reflexivity. }
      rewrite E. unfold called. rewrite point_at_put by apply pow2_pos. rewrite pow2_R. do 3 f_equal. field. apply pow_nonzero; lra.
    - rewrite map_length, uniform_length. reflexivity.
  Qed.

  Variable Phi : R -> cR.
  Hypothesis Phi_along : forall t, Q2R a <= t <= Q2R b -> has_along h (Q2R l) t Phi G.
  Hypothesis bend : forall part : cR -> R, part = fst \/ part = snd -> bends_at_most M (fun t => part (G (put h t (Q2R l)))) (Q2R a) (Q2R b).

  Lemma parts_error k :
    let I := rule romberg (called G) A B k in
    Rabs (fst I - (if h then fst (Phi (Q2R b)) - fst (Phi (Q2R a)) else snd (Phi (Q2R b)) - snd (Phi (Q2R a)))) <= err k /\
    Rabs (snd I - (if h then snd (Phi (Q2R b)) - snd (Phi (Q2R a)) else - (fst (Phi (Q2R b)) - fst (Phi (Q2R a))))) <= err k.
  Proof.
    cbv zeta. unfold rule. cbn [fst snd].
    assert (SM : forall part Y, part = fst \/ part = snd ->
      (forall t, Q2R a <= t <= Q2R b -> derivable_pt_lim Y t (part (G (put h t (Q2R l))))) ->
      smooth (Q2R a) (Q2R b) M (fun t => part (G (put h t (Q2R l)))) Y).
    { intros part Y HP HY. destruct (bend part HP) as (g1 & g2 & D). exists g1, g2. intros t Ht.
      destruct (D t Ht) as (D1 & D2 & D3). auto. }
    pose proof part_error as PE. destruct h.
    - split.
      + apply (PE fst (fun t => fst (Phi t))). apply SM; [left; reflexivity|]. intros t Ht. destruct (Phi_along t Ht) as [P1 _].
        eapply lim_eq; [exact P1|]. unfold dir, times. cbn [fst snd]. ring.
      + apply (PE snd (fun t => snd (Phi t))). apply SM; [right; reflexivity|]. intros t Ht. destruct (Phi_along t Ht) as [_ P1].
        eapply lim_eq; [exact P1|]. unfold dir, times. cbn [fst snd]. ring.
    - split.
      + apply (PE fst (fun t => snd (Phi t))). apply SM; [left; reflexivity|]. intros t Ht. destruct (Phi_along t Ht) as [_ P1].
        eapply lim_eq; [exact P1|]. unfold dir, times. cbn [fst snd]. ring.
      + replace (- (fst (Phi (Q2R b)) - fst (Phi (Q2R a)))) with (-1 * fst (Phi (Q2R b)) - -1 * fst (Phi (Q2R a))) by ring.
        apply (PE snd (fun t => -1 * fst (Phi t))). apply SM; [right; reflexivity|]. intros t Ht. destruct (Phi_along t Ht) as [P1 _].
        eapply lim_eq; [apply lim_scale, P1|]. unfold dir, times. cbn [fst snd]. ring.
  Qed.

  (** The value of the side is the change of Phi divided by i. *)
  Lemma value_error k :
    let V := line_value A B (rule romberg (called G) A B k) in
    Rabs (fst V - (snd (Phi (Q2R b)) - snd (Phi (Q2R a)))) <= err k /\
    Rabs (snd V - - (fst (Phi (Q2R b)) - fst (Phi (Q2R a)))) <= err k.
  Proof.
    cbv zeta. pose proof (parts_error k) as PE. cbv zeta in PE. set (I := rule romberg (called G) A B k) in *. clearbody I.
    pose proof (Qlt_Rlt _ _ ab) as HR.
    unfold line_value. rewrite distance_side by (apply Qlt_le_weak, ab).
    destruct h; cbn [mkpoint re im fst snd] in *; rewrite !Q2R_minus; unfold times; cbn [fst snd]; destruct PE as [P1 P2].
    - split.
      + match goal with |- Rabs ?x <= _ => replace x with (snd I - (snd (Phi (Q2R b)) - snd (Phi (Q2R a)))) by (field; lra) end. exact P2.
      + match goal with |- Rabs ?x <= _ => replace x with (- (fst I - (fst (Phi (Q2R b)) - fst (Phi (Q2R a))))) by (field; lra) end. rewrite Rabs_Ropp. exact P1.
    - split.
      + match goal with |- Rabs ?x <= _ => replace x with (fst I - (snd (Phi (Q2R b)) - snd (Phi (Q2R a)))) by (field; lra) end. exact P1.
      + match goal with |- Rabs ?x <= _ => replace x with (snd I - - (fst (Phi (Q2R b)) - fst (Phi (Q2R a)))) by (field; lra) end. exact P2.
  Qed.

  Lemma err_step k : err (S k) <= err k.
  Proof.
    unfold err. pose proof (Qlt_Rlt _ _ ab) as HR. cbn [pow]. assert (P : 0 < 4 ^ k) by (apply pow_lt; lra).
    assert (C : 0 <= M * ((Q2R b - Q2R a) * (Q2R b - Q2R a) * (Q2R b - Q2R a))) by (apply Rmult_le_pos; [exact M0|]; repeat apply Rmult_le_pos; lra).
    unfold Rdiv. apply Rmult_le_compat_l; [exact C|]. apply Rinv_le_contravar; nra.
  Qed.

  Lemma converges : err 10 < 1 / 2000 -> close_to (rule romberg (called G) A B 11) (rule romberg (called G) A B 10).
  Proof.
    intro H. pose proof (parts_error 10) as [P1 P2]. pose proof (parts_error 11) as [Q1 Q2]. pose proof (err_step 10) as E.
    split.
    - revert P1 Q1. generalize (fst (rule romberg (called G) A B 11)), (fst (rule romberg (called G) A B 10)).
      intros u v P1 Q1. match type of P1 with Rabs (_ - ?x) <= _ => generalize dependent x end. intros x P1 Q1.
      replace (u - v) with ((u - x) + - (v - x)) by ring. eapply Rle_lt_trans; [apply Rabs_triang|]. rewrite Rabs_Ropp. lra.
    - revert P2 Q2. generalize (snd (rule romberg (called G) A B 11)), (snd (rule romberg (called G) A B 10)).
      intros u v P2 Q2. match type of P2 with Rabs (_ - ?x) <= _ => generalize dependent x end. intros x P2 Q2.
      replace (u - v) with ((u - x) + - (v - x)) by ring. eapply Rle_lt_trans; [apply Rabs_triang|]. rewrite Rabs_Ropp. lra.
  Qed.
End Side.

(** ** One run of the loop *)
Lemma called_proper F : proper (called F).
Proof.
  intros z z' [E1 E2]. unfold called, real_point. rewrite (Qeq_eqR _ _ E1), (Qeq_eqR _ _ E2). reflexivity.
Qed.
Lemma called_integrand F DF k : integrand (called F) (called DF) k = called (moment_at F DF k).
Proof. reflexivity. Qed.

Lemma gen_clean fz prec fuel a b m : (forall z, In z (linspaceC a b m) -> fz z = false) ->
  genFuncArr fz prec (S fuel) a b m = Some (linspaceC a b m, []).
Proof.
  intro H. unfold genFuncArr. cbn [shift_loop].
  assert (E : filter fz (linspaceC a b m) = []).
  { induction (linspaceC a b m) as [|z l IH]; [reflexivity|]. cbn. rewrite (H z (or_introl eq_refl)). apply IH.
    intros; apply H; right; assumption. }
  rewrite E. reflexivity.
Qed.

Lemma quad_first F DF prec fuel k a b :
  (forall N i, (1 <= N)%nat -> (i <= N)%nat -> F (real_point (point_at a b N i)) <> (0, 0)) ->
  close_to (rule romberg (called (moment_at F DF k)) a b 11) (rule romberg (called (moment_at F DF k)) a b 10) ->
  (2 <= fuel)%nat ->
  quad_line romberg (called F) (Some (called DF)) prec fuel k a b =
  QuadOk [] (line_value a b (rule romberg (called (moment_at F DF k)) a b 10)).
Proof.
  intros NZ CL HF. destruct fuel as [|[|fuel]]; try lia.
  set (fz := fun z => is_zero_R (called F z)).
  assert (CLEAN : forall N z, (1 <= N)%nat -> In z (linspaceC a b (N + 1)) -> fz z = false).
  { intros N z HN Hz. pose proof (linspace_uniform a b N HN) as FU.
    assert (X : exists i, (i <= N)%nat /\ ceq (point_at a b N i) z).
    { apply In_nth with (d := (0, 0)%Q) in Hz as (i & Hi & <-). pose proof (F2_length _ _ _ FU) as FL. rewrite uniform_length in FL.
      exists i. split; [lia|]. pose proof (F2_nth _ _ _ (0, 0)%Q FU i ltac:(rewrite uniform_length; lia)) as E.
      rewrite uniform_nth in E by lia. exact E. }
    destruct X as (i & Hi & E). unfold fz. rewrite <- (called_proper F _ _ E). specialize (NZ N i HN Hi). unfold called, is_zero_R.
    destruct (F (real_point (point_at a b N i))) as [u v]. cbn [fst snd].
    destruct (Req_EM_T u 0) as [-> |]; [|reflexivity]. destruct (Req_EM_T v 0) as [-> |]; [congruence|reflexivity]. }
  unfold quad_line. fold fz. rewrite called_integrand. set (g := called (moment_at F DF k)) in *.
  assert (PG : forall z z', ceq z z' -> g z = g z') by (apply called_proper).
  change (rule romberg g a b 11) with (rule romberg g a b (S EXP_SAMPLE_POINTS)) in CL.
  change (rule romberg g a b 10) with (rule romberg g a b EXP_SAMPLE_POINTS) in *.
  destruct (rule_samples g romberg PG a b _ _ (linspace_uniform a b _ (pow2_pos EXP_SAMPLE_POINTS))) as [R10 R10'].
  destruct (rule_samples g romberg PG a b _ _ (linspace_uniform a b _ (pow2_pos (S EXP_SAMPLE_POINTS)))) as [R11 R11'].
  pose proof (pow2_pos EXP_SAMPLE_POINTS) as P10. pose proof (pow2_pos (S EXP_SAMPLE_POINTS)) as P11.
  revert R10 R10' R11 R11' P10 P11 CL. generalize (rule romberg g a b EXP_SAMPLE_POINTS), (rule romberg g a b (S EXP_SAMPLE_POINTS)).
  unfold quad_iterate, quad_init. intros J10 J11.
  change (Nat.leb EXP_SAMPLE_POINTS MAX_SAMPLE_POINTS) with true.
  generalize (2 ^ EXP_SAMPLE_POINTS)%nat. intros N10. 
  intros R10 R10' R11 R11' P10 P11 CL.
  rewrite (gen_clean fz) by (intros z Hz; exact (CLEAN N10 z P10 Hz)). rewrite R10, R10'.
  set (s := mkQuad _ _ _ _ _ _ _ _).
  assert (U : quad_loop fz g romberg below_thousandth prec (distance_of a b) (S (S fuel)) s =
    QuadDone true (mkQuad (S EXP_SAMPLE_POINTS) a b (linspaceC a b (2 ^ S EXP_SAMPLE_POINTS + 1)) (map g (linspaceC a b (2 ^ S EXP_SAMPLE_POINTS + 1))) (fst J10) (snd J10) [])).
  { revert R11 R11' P11. remember (2 ^ S EXP_SAMPLE_POINTS)%nat as N11 eqn:EN. intros R11 R11' P11.
    cbn [quad_loop]. change (samplePts s) with EXP_SAMPLE_POINTS. rewrite <- EN.
    change (Nat.leb EXP_SAMPLE_POINTS MAX_SAMPLE_POINTS) with true. cbv iota.
    change (Nat.leb (EXP_SAMPLE_POINTS + 2) EXP_SAMPLE_POINTS) with false. cbv iota.
    unfold s at 1 2. cbn [q_start q_end].
    rewrite (gen_clean fz) by (intros z Hz; exact (CLEAN N11 z P11 Hz)).
    rewrite R11, R11'. change (q_real s) with (fst J10). change (q_imag s) with (snd J10).
    destruct CL as [C1 C2]. rewrite (proj2 (small_iff _) C1), (proj2 (small_iff _) C2). cbn [andb].
    reflexivity. }
  rewrite U. cbn [q_found q_start q_end q_real q_imag].
  f_equal. unfold line_value, cR_mul, times, to_cR. change (distance a b) with (distance_of a b). cbn [fst snd re im]. apply pair_eq; unfold Rdiv; ring.
Qed.
