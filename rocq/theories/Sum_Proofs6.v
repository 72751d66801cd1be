(** * Summation estimator: results of genPhiArr, examples *)
From Coq Require Import Reals.
From Verif Require Import PyBase Cache_Proofs Sum_Model Sum_Spec Angle_Proofs Sum_Proofs Sum_Proofs2 Sum_Proofs3 Sum_Proofs4 Sum_Proofs5.
From Coq Require Import Qreals Lra Lqa.
Open Scope Z_scope.

Lemma closed_turns v vs : Forall nonzero (v :: vs) -> last (v :: vs) v = v ->
  exists k, (Rsum (steps (v :: vs)) = 2 * PI * IZR k)%R.
Proof.
  intros HN HL. inversion HN as [|? ? H1 H2]; subst.
  destruct (arctan2_polar v H1) as [r P]. destruct (steps_polar vs v r _ HN P) as [r' P'].
  rewrite HL in P'. destruct (polar_unique _ _ _ _ _ P P') as [k K]. exists k. Lra.lra.
Qed.

Lemma sequence_exact (vs : list (cR * (R * R))) : forall v r t,
  Forall (fun e => polar (fst e) (fst (snd e)) (snd (snd e))) ((v, (r, t)) :: vs) ->
  chain (fun a b => Rabs (snd (snd b) - snd (snd a)) < PI)%R ((v, (r, t)) :: vs) ->
  Rsum (steps (v :: map fst vs)) = (snd (snd (last vs (v, (r, t)))) - t)%R.
Proof.
  induction vs as [|[w [r' t']] vs IH]; intros v r t HF HC.
  - unfold Rsum. cbn. Lra.lra.
  - inversion HF as [|? ? H1 H2]; subst. inversion H2 as [|? ? H3 H4]; subst. cbn [fst snd] in *.
    destruct HC as [HC1 HC2]. cbn [map fst snd] in *.
    change (steps (v :: w :: map fst vs)) with (arctan2 (quotient w v) :: steps (w :: map fst vs)).
    rewrite Rsum_cons, (IH w r' t' H2 HC2), (step_exact _ _ _ _ _ _ H1 H3 HC1).
    replace (last ((w, (r', t')) :: vs) (v, (r, t))) with (last vs (w, (r', t'))); [Lra.lra|].
    destruct vs as [|x vs]; [reflexivity|]. symmetry. apply (last_indep vs x).
Qed.

Section R.
  Variables (f : cplx -> cR) (delta : R) (mp : Q) (n : nat) (prec : Z * Z).
  Hypothesis delta_pos : (0 < delta)%R.

  Lemma gen_phi_terminates a b : (1 <= n)%nat ->
    (forall c d m, exists fuel, genFuncArr (vanishes f) prec fuel c d m <> None) ->
    exists fuel, gen_phi f delta mp n prec fuel 0 a b <> GenLoops.
  Proof.
    intros Hn HG. destruct (HG a b n) as [g Hg].
    destruct (genFuncArr (vanishes f) prec g a b n) as [[z0 fd]|] eqn:G; [|congruence].
    pose proof (genFuncArr_length _ _ _ _ _ _ _ _ G) as LR.
    assert (HL : @lengths R z0 (increments (phase_step f) z0)) by (unfold lengths; rewrite increments_length; lia).
    destruct (phi_loop_terminates 0%R (vanishes f) (phase_step f) (at_least delta) (refinement delta) (nearer mp) n prec
      (refinement_large delta delta_pos) HG (S (MAX_Z_LENGTH * n)) z0 _ 0%nat fd HL ltac:(lia)) as [fuel Hf].
    exists (Nat.max g fuel). unfold gen_phi, genPhiArr. cbn [Z.eqb].
    rewrite (genFuncArr_mono _ _ g _ _ _ _ _ (Nat.le_max_l g fuel) G).
    rewrite (phi_loop_mono _ _ _ _ _ _ _ _ fuel); [exact Hf|apply Nat.le_max_r|exact Hf].
  Qed.

  Lemma gen_phi_bound a b fuel : (1 <= n)%nat -> (forall z, nonzero (f z)) -> (100 * n + 3 <= fuel)%nat ->
    gen_phi f delta mp n prec fuel 0 a b <> GenLoops.
  Proof.
    intros Hn HN HF. unfold gen_phi, genPhiArr. cbn [Z.eqb].
    assert (HZ : forall z, vanishes f z = false) by (intro z; apply vanishes_false, HN).
    destruct (genFuncArr (vanishes f) prec fuel a b n) as [[z0 fd]|] eqn:G.
    2:{ destruct fuel as [|fuel]; [lia|]. unfold genFuncArr in G. cbn [shift_loop] in G.
        assert (filter (vanishes f) (linspaceC a b n) = []) as E.
        { generalize (linspaceC a b n). intro l. induction l as [|z l IH]; [reflexivity|]. cbn. rewrite HZ. exact IH. }
        rewrite E in G. discriminate. }
    pose proof (genFuncArr_length _ _ _ _ _ _ _ _ G) as LR.
    assert (HL : @lengths R z0 (increments (phase_step f) z0)) by (unfold lengths; rewrite increments_length; lia).
    apply (phi_loop_bound 0%R (vanishes f) (phase_step f) (at_least delta) (refinement delta) (nearer mp) n prec
      (refinement_large delta delta_pos) HZ (S (MAX_Z_LENGTH * n - n))); [exact HL| |].
    - unfold MAX_Z_LENGTH. lia.
    - unfold MAX_Z_LENGTH. lia.
  Qed.

  Lemma gen_phi_result a b fuel zs phis zeros : (1 <= n)%nat ->
    gen_phi f delta mp n prec fuel 0 a b = Gen zs phis zeros ->
    List.length zs = S (List.length phis) /\ (n <= List.length zs)%nat /\
    ((forall p, In p phis -> (Rabs p < delta)%R) \/
     (exists k, (k < List.length phis)%nat /\ (delta <= Rabs (nth k phis 0%R))%R /\
        (forall j, (j < k)%nat -> (Rabs (nth j phis 0%R) < delta)%R) /\
        (nearer mp (nth k zs (0, 0)%Q) (nth (S k) zs (0, 0)%Q) = true \/
         (100 * n < List.length zs)%nat))).
  Proof.
    intros Hn H. unfold gen_phi, genPhiArr in H. cbn [Z.eqb] in H.
    destruct (genFuncArr (vanishes f) prec fuel a b n) as [[z0 fd]|] eqn:G; [|discriminate].
    pose proof (genFuncArr_length _ _ _ _ _ _ _ _ G) as LR.
    assert (HL : @lengths R z0 (increments (phase_step f) z0)) by (unfold lengths; rewrite increments_length; lia).
    destruct (phi_loop_lengths 0%R (vanishes f) (phase_step f) (at_least delta) (refinement delta) (nearer mp) n prec
      (refinement_large delta delta_pos) _ _ _ _ _ _ _ _ HL H) as (L1 & L2 & _).
    split; [exact L1|]. split; [lia|].
    destruct (phi_loop_exit 0%R _ _ _ _ _ _ _ _ _ _ _ _ _ _ _ H) as [X|(k & K1 & K2)].
    - left. intros p Hp. specialize (X p Hp). unfold at_least in X.
      destruct (Rle_dec delta (Rabs p)); [discriminate|Lra.lra].
    - right. exists k. destruct (first_index_some _ _ _ K1) as [K3 K4].
      split; [exact K3|]. split.
      { specialize (K4 0%R). unfold at_least in K4. destruct (Rle_dec delta _); [assumption|discriminate]. }
      split.
      { clear - K1. revert k K1. induction phis as [|p l IH]; intros k K1 j Hj; [discriminate|]. cbn in K1.
        destruct (at_least delta p) eqn:A; [injection K1 as <-; lia|].
        destruct (first_index (at_least delta) l) as [k'|]; [|discriminate]. injection K1 as <-.
        destruct j as [|j].
        - cbn. unfold at_least in A. destruct (Rle_dec delta (Rabs p)); [discriminate|Lra.lra].
        - cbn. apply (IH k' eq_refl). lia. }
      exact K2.
  Qed.

  Lemma gen_phi_on_line horiz level t1 t2 fuel zs phis : (2 <= n)%nat -> (t1 < t2)%Q ->
    gen_phi f delta mp n prec fuel 0 (mkpoint horiz level t1) (mkpoint horiz level t2) = Gen zs phis [] ->
    phis = increments (phase_step f) zs /\
    (exists mid, zs = mkpoint horiz level t1 :: mid ++ [mkpoint horiz level t2]) /\
    chain (on_line (coord_of horiz) (other_of horiz) level ((t2 - t1) / inject_Z (Z.of_nat (n - 1)))) zs /\
    (forall z, In z zs -> nonzero (f z)).
  Proof.
    intros Hn L H.
    set (h := ((t2 - t1) / inject_Z (Z.of_nat (n - 1)))%Q).
    assert (HN : (0 < inject_Z (Z.of_nat (n - 1)))%Q).
    { change 0%Q with (inject_Z 0). rewrite <- Zlt_Qlt. lia. }
    assert (HH : (h * inject_Z (Z.of_nat (n - 1)) == t2 - t1)%Q) by (unfold h; field; Lqa.lra).
    destruct (genPhi_chain 0%R (vanishes f) (phase_step f) (at_least delta) (refinement delta) (nearer mp) n prec
      (refinement_large delta delta_pos) (on_line (coord_of horiz) (other_of horiz) level h)
      (on_line_subdivide _ _ _ _ (axes_of horiz)) fuel (mkpoint horiz level t1) (mkpoint horiz level t2) zs phis Hn)
      as (C1 & C2 & C3 & mid & C4).
    - apply linspaceC_on_line; [apply axes_of| |exact Hn]. unfold on_line. rewrite HH.
      destruct horiz; cbn; repeat split; try reflexivity; Lqa.lra.
    - exact H.
    - split; [exact C1|]. split; [exists mid; exact C4|]. split; [exact C2|].
      intros z Hz. apply vanishes_false. destruct (vanishes f z) eqn:E; [|reflexivity].
      assert (X : In z (filter (vanishes f) zs)) by (apply filter_In; auto). rewrite C3 in X. contradiction.
  Qed.

  (** Four sides with a true angle on each. *)
  Lemma rectangle_winding x1 x2 y1 y2 fuel1 fuel2 fuel3 fuel4 st st1 st2 st3 st4 p1 p2 p3 p4
     (bottom right top left : Q -> R) (rb rr rt rl : Q -> R) :
    (2 <= n)%nat -> (x1 < x2)%Q -> (y1 < y2)%Q ->
    (forall z z', ceq z z' -> f z = f z') ->
    level_free st true y1 -> level_free st true y2 -> level_free st false x1 -> level_free st false x2 ->
    (forall t, (x1 <= t)%Q -> (t <= x2)%Q -> polar (f (t, y1)) (rb t) (bottom t) /\ polar (f (t, y2)) (rt t) (top t)) ->
    (forall t, (y1 <= t)%Q -> (t <= y2)%Q -> polar (f (x1, t)) (rl t) (left t) /\ polar (f (x2, t)) (rr t) (right t)) ->
    (forall t t', (x1 <= t)%Q -> (t < t')%Q -> (t' <= x2)%Q -> (t' - t <= (x2 - x1) / inject_Z (Z.of_nat (n - 1)))%Q ->
       (Rabs (bottom t' - bottom t) < PI)%R /\ (Rabs (top t' - top t) < PI)%R) ->
    (forall t t', (y1 <= t)%Q -> (t < t')%Q -> (t' <= y2)%Q -> (t' - t <= (y2 - y1) / inject_Z (Z.of_nat (n - 1)))%Q ->
       (Rabs (left t' - left t) < PI)%R /\ (Rabs (right t' - right t) < PI)%R) ->
    bottom x2 = right y1 -> right y2 = top x2 -> top x1 = left y2 ->
    sum_line f delta mp n prec fuel1 0 (x1, y1) (x2, y1) st = (st1, SumOk [] p1) ->
    sum_line f delta mp n prec fuel2 0 (x2, y1) (x2, y2) st1 = (st2, SumOk [] p2) ->
    sum_line f delta mp n prec fuel3 0 (x2, y2) (x1, y2) st2 = (st3, SumOk [] p3) ->
    sum_line f delta mp n prec fuel4 0 (x1, y2) (x1, y1) st3 = (st4, SumOk [] p4) ->
    (p1 + p2 + p3 + p4 = left y1 - bottom x1)%R.
  Proof.
    intros Hn Lx Ly Hf F1 F2 F3 F4 HX HY MX MY K1 K2 K3 E1 E2 E3 E4.
    rewrite sum_line_swap in E3 by Lqa.lra. rewrite sum_line_swap_vertical in E4 by Lqa.lra.
    destruct (sum_line f delta mp n prec fuel3 0 (x1, y2) (x2, y2) st2) as [u3 r3] eqn:E3'.
    destruct (sum_line f delta mp n prec fuel4 0 (x1, y1) (x1, y2) st3) as [u4 r4] eqn:E4'.
    cbn [fst snd] in E3, E4. destruct r3 as [z3 q3|e|]; try discriminate. destruct r4 as [z4 q4|e|]; try discriminate.
    cbn [negated] in E3, E4. injection E3 as -> -> <-. injection E4 as -> -> <-.
    assert (Ny : ~ (y2 == y1)%Q) by Lqa.lra. assert (Nx : ~ (x1 == x2)%Q) by Lqa.lra.
    change (x1, y1) with (mkpoint true y1 x1) in E1. change (x2, y1) with (mkpoint true y1 x2) in E1.
    change (x2, y1) with (mkpoint false x2 y1) in E2. change (x2, y2) with (mkpoint false x2 y2) in E2.
    change (x1, y2) with (mkpoint true y2 x1) in E3'. change (x2, y2) with (mkpoint true y2 x2) in E3'.
    change (x1, y1) with (mkpoint false x1 y1) in E4'. change (x1, y2) with (mkpoint false x1 y2) in E4'.
    pose proof (line_frame f delta mp n prec delta_pos Hn) as LF.
    assert (T1 : level_free st1 false x2)
      by (refine (LF true y1 fuel1 x1 x2 st st1 p1 false x2 Lx F1 E1 _ F4); apply or_introl; discriminate).
    assert (T2 : level_free st1 true y2)
      by (refine (LF true y1 fuel1 x1 x2 st st1 p1 true y2 Lx F1 E1 _ F2); apply or_intror; exact Ny).
    assert (T3 : level_free st1 false x1)
      by (refine (LF true y1 fuel1 x1 x2 st st1 p1 false x1 Lx F1 E1 _ F3); apply or_introl; discriminate).
    assert (U2 : level_free st2 true y2)
      by (refine (LF false x2 fuel2 y1 y2 st1 st2 p2 true y2 Ly T1 E2 _ T2); apply or_introl; discriminate).
    assert (U3 : level_free st2 false x1)
      by (refine (LF false x2 fuel2 y1 y2 st1 st2 p2 false x1 Ly T1 E2 _ T3); apply or_intror; exact Nx).
    assert (V3 : level_free st3 false x1)
      by (refine (LF true y2 fuel3 x1 x2 st2 st3 q3 false x1 Lx U2 E3' _ U3); apply or_introl; discriminate).
    assert (X1 : p1 = (bottom x2 - bottom x1)%R).
    { apply (line_exact f delta mp n prec delta_pos Hn true y1 fuel1 x1 x2 st st1 p1 bottom rb Lx F1 Hf);
        [intros; apply HX; assumption|intros; apply (MX t t'); assumption|exact E1]. }
    assert (X2 : p2 = (right y2 - right y1)%R).
    { apply (line_exact f delta mp n prec delta_pos Hn false x2 fuel2 y1 y2 st1 st2 p2 right rr Ly T1 Hf);
        [intros; apply HY; assumption|intros; apply (MY t t'); assumption|exact E2]. }
    assert (X3 : q3 = (top x2 - top x1)%R).
    { apply (line_exact f delta mp n prec delta_pos Hn true y2 fuel3 x1 x2 st2 st3 q3 top rt Lx U2 Hf);
        [intros; apply HX; assumption|intros; apply (MX t t'); assumption|exact E3']. }
    assert (X4 : q4 = (left y2 - left y1)%R).
    { apply (line_exact f delta mp n prec delta_pos Hn false x1 fuel4 y1 y2 st3 st4 q4 left rl Ly V3 Hf);
        [intros; apply HY; assumption|intros; apply (MY t t'); assumption|exact E4']. }
    rewrite X1, X2, X3, X4, K1, K2, <- K3. Lra.lra.
  Qed.

  (** With a threshold above half a turn nothing is refined. *)
  Lemma gen_phi_unrefined a b fuel : (PI < delta)%R -> (forall z, In z (linspaceC a b n) -> nonzero (f z)) ->
    gen_phi f delta mp n prec (S fuel) 0 a b = Gen (linspaceC a b n) (increments (phase_step f) (linspaceC a b n)) [].
  Proof.
    intros HD HN. unfold gen_phi, genPhiArr, genFuncArr. cbn [Z.eqb shift_loop].
    assert (filter (vanishes f) (linspaceC a b n) = []) as ->.
    { revert HN. generalize (linspaceC a b n). intros l HN. induction l as [|z l IH]; [reflexivity|]. cbn.
      assert (vanishes f z = false) as -> by (apply vanishes_false, HN; left; reflexivity).
      apply IH. intros; apply HN; right; assumption. }
    cbn [phi_loop].
    assert (first_index (at_least delta) (increments (phase_step f) (linspaceC a b n)) = None) as ->; [|reflexivity].
    apply first_index_none. intros p Hp. rewrite increments_steps in Hp.
    assert (G : forall vs, In p (steps vs) -> exists q, p = arctan2 q).
    { clear. induction vs as [|v vs IH]; intro H; [contradiction|]. destruct vs as [|w vs]; [contradiction|].
      destruct H as [<-|H]; [eexists; reflexivity|apply IH, H]. }
    destruct (G _ Hp) as [q ->]. unfold at_least. destruct (Rle_dec delta (Rabs (arctan2 q))) as [C|]; [|reflexivity].
    exfalso. pose proof (arctan2_range q) as [A B].
    assert (Rabs (arctan2 q) <= PI)%R by (apply Rabs_le; Lra.lra). Lra.lra.
  Qed.

  Lemma free_line_unrefined horiz level t1 t2 fuel st : (PI < delta)%R -> (t1 < t2)%Q -> level_free st horiz level ->
    (forall z, In z (linspaceC (mkpoint horiz level t1) (mkpoint horiz level t2) n) -> nonzero (f z)) ->
    exists st' p, sum_line f delta mp n prec (S fuel) 0 (mkpoint horiz level t1) (mkpoint horiz level t2) st = (st', SumOk [] p).
  Proof.
    intros HD L HF HN. rewrite sum_line_as_retrieve by exact L.
    rewrite retrieve_miss; [|exact L|unfold level_free, line_cache in *; destruct horiz; exact HF].
    pose proof (gen_phi_unrefined _ _ fuel HD HN) as G. unfold gen_phi in G. rewrite G. eauto.
  Qed.
End R.

(** The identity as a function of the estimator. *)
Definition identity (z : cplx) : cR := (Q2R (re z), Q2R (im z)).

Lemma identity_nonzero z : ~ ceq z (0, 0)%Q -> nonzero (identity z).
Proof.
  intros N C. apply N. unfold identity in C. injection C as C1 C2. split; cbn [re im fst snd].
  - apply eqR_Qeq. rewrite C1. unfold Q2R. cbn. Lra.lra.
  - apply eqR_Qeq. rewrite C2. unfold Q2R. cbn. Lra.lra.
Qed.
