(** * Proofs about the summation estimator: phases and splitting *)
From Coq Require Import Reals.
From Verif Require Import PyBase Cache_Proofs Sum_Model Sum_Spec Angle_Proofs Sum_Proofs Sum_Proofs2 Sum_Proofs3.
From Coq Require Import Lra Lqa.
Open Scope Z_scope.

Lemma vanishes_false f z : vanishes f z = false <-> nonzero (f z).
Proof.
  unfold vanishes, nonzero. destruct (f z) as [x y]. cbn.
  destruct (Req_EM_T x 0) as [->|]; [destruct (Req_EM_T y 0) as [->|]|]; split; intro H; try congruence.
Qed.

Lemma no_zeros f zs : filter (vanishes f) zs = [] -> Forall nonzero (map f zs).
Proof.
  induction zs as [|z zs IH]; intro H; [constructor|]. cbn in H.
  destruct (vanishes f z) eqn:E; [discriminate|]. constructor; [apply vanishes_false, E|apply IH, H].
Qed.

Lemma increments_steps f zs : increments (phase_step f) zs = steps (map f zs).
Proof.
  induction zs as [|z zs IH]; [reflexivity|]. destruct zs as [|z' zs]; [reflexivity|].
  change (phase_step f z z' :: increments (phase_step f) (z' :: zs) =
          arctan2 (quotient (f z') (f z)) :: steps (map f (z' :: zs))).
  rewrite IH. reflexivity.
Qed.

Lemma last_map {A B} (g : A -> B) (l : list A) d : last (map g l) (g d) = g (last l d).
Proof. induction l as [|a [|b l] IH]; [reflexivity|reflexivity|exact IH]. Qed.

(** Along a chain of samples the angle moves by the sum of the phase steps. *)
Lemma chain_angle f a mid b r t : filter (vanishes f) (a :: mid ++ [b]) = [] -> polar (f a) r t ->
  exists r', polar (f b) r' (t + Rsum (increments (phase_step f) (a :: mid ++ [b]))).
Proof.
  intros HZ HP. rewrite increments_steps.
  pose proof (no_zeros f _ HZ) as HN. cbn [map] in HN.
  destruct (steps_polar (map f (mid ++ [b])) (f a) r t HN HP) as [r' P]. exists r'.
  cbn [map]. replace (f b) with (last (f a :: map f (mid ++ [b])) (f a)); [exact P|].
  rewrite map_app. cbn [map]. rewrite app_comm_cons. apply last_last.
Qed.

(** Exact sum if the true angle changes by less than half a turn between neighbours. *)
Lemma chain_exact f (theta radius : cplx -> R) zs : forall a,
  (forall z, In z (a :: zs) -> polar (f z) (radius z) (theta z)) ->
  chain (fun z z' => Rabs (theta z' - theta z) < PI)%R (a :: zs) ->
  Rsum (increments (phase_step f) (a :: zs)) = (theta (last (a :: zs) a) - theta a)%R.
Proof.
  induction zs as [|b zs IH]; intros a HP HC; [unfold Rsum; cbn; Lra.lra|].
  change (increments (phase_step f) (a :: b :: zs)) with (phase_step f a b :: increments (phase_step f) (b :: zs)).
  destruct HC as [HC1 HC2]. rewrite Rsum_cons, IH; [| |exact HC2].
  2:{ intros z Hz. apply HP. right. exact Hz. }
  change (last (a :: b :: zs) a) with (last (b :: zs) a). rewrite (last_indep zs b a b).
  unfold phase_step. rewrite (step_exact _ (radius a) (theta a) _ (radius b) (theta b)).
  - Lra.lra.
  - apply HP. left; reflexivity.
  - apply HP. right; left; reflexivity.
  - exact HC1.
Qed.

(** ** A line at a level not seen before *)
Lemma axes_of horiz : axes (coord_of horiz) (other_of horiz).
Proof. destruct horiz; [left|right]; split; reflexivity. Qed.

Section Line.
  Variables (f : cplx -> cR) (delta : R) (mp : Q) (n : nat) (prec : Z * Z).
  Hypothesis delta_pos : (0 < delta)%R.
  Hypothesis n_big : (2 <= n)%nat.

  Notation genPhi := (genPhiArr 0%R (vanishes f) (phase_step f) (at_least delta) (refinement delta) (nearer mp) n prec).

  (** What is stored after a miss, and the shape of the samples. *)
  Lemma fresh_line horiz level fuel t1 t2 st st' p : (t1 < t2)%Q -> level_free st horiz level ->
    sum_line f delta mp n prec fuel 0 (mkpoint horiz level t1) (mkpoint horiz level t2) st = (st', SumOk [] p) ->
    exists mid, let zs := mkpoint horiz level t1 :: mid ++ [mkpoint horiz level t2] in
      p = Rsum (increments (phase_step f) zs) /\ filter (vanishes f) zs = [] /\
      chain (on_line (coord_of horiz) (other_of horiz) level ((t2 - t1) / inject_Z (Z.of_nat (n - 1)))) zs /\
      (if horiz then vertical st' = vertical st else horizontal st' = horizontal st) /\
      (if horiz then horizontal st' else vertical st') =
        storeCache level 0 t1 t2 (zs, increments (phase_step f) zs)
          (dset okey_eqb (level, 0) [] (if horiz then horizontal st else vertical st)).
  Proof.
    intros L HF H.
    assert (G : exists zs phis, genPhi fuel 0 (mkpoint horiz level t1) (mkpoint horiz level t2) = Gen zs phis [] /\
      p = Rsum phis /\
      (if horiz then vertical st' = vertical st else horizontal st' = horizontal st) /\
      (if horiz then horizontal st' else vertical st') = storeCache level 0 t1 t2 (zs, phis)
          (dset okey_eqb (level, 0) [] (if horiz then horizontal st else vertical st))).
    { unfold sum_line, sumLine in H. destruct horiz; cbn [mkpoint re im fst snd] in *; unfold level_free in HF.
      - rewrite Qeq_bool_refl in H. rewrite retrieve_miss in H by assumption.
        destruct (genPhi fuel 0 _ _) as [zs phis found|e|] eqn:GE; [|congruence|congruence].
        injection H as <- -> <-. exists zs, phis. cbn [horizontal vertical]. repeat split; auto.
      - assert (E : Qeq_bool t1 t2 = false) by (apply Qeqb_false; Lqa.lra). rewrite E, Qeq_bool_refl in H.
        rewrite retrieve_miss in H by assumption.
        destruct (genPhi fuel 0 _ _) as [zs phis found|e|] eqn:GE; [|congruence|congruence].
        injection H as <- -> <-. exists zs, phis. cbn [horizontal vertical]. repeat split; auto. }
    destruct G as (zs & phis & G & HP & HS1 & HS2).
    set (h := ((t2 - t1) / inject_Z (Z.of_nat (n - 1)))%Q).
    assert (HN : (0 < inject_Z (Z.of_nat (n - 1)))%Q).
    { change 0%Q with (inject_Z 0). rewrite <- Zlt_Qlt. lia. }
    assert (HH : (h * inject_Z (Z.of_nat (n - 1)) == t2 - t1)%Q) by (unfold h; field; Lqa.lra).
    destruct (genPhi_chain 0%R (vanishes f) (phase_step f) (at_least delta) (refinement delta) (nearer mp) n prec
      (refinement_large delta delta_pos) (on_line (coord_of horiz) (other_of horiz) level h)
      (on_line_subdivide _ _ _ _ (axes_of horiz)) fuel (mkpoint horiz level t1) (mkpoint horiz level t2) zs phis n_big)
      as (C1 & C2 & C3 & mid & C4).
    - apply linspaceC_on_line; [apply axes_of| |exact n_big]. unfold on_line. rewrite HH.
      destruct horiz; cbn; repeat split; try reflexivity; Lqa.lra.
    - exact G.
    - exists mid. cbn zeta. subst phis zs. repeat split; try assumption.
  Qed.

  Lemma chain_mono horiz level h : forall zs a z, chain (on_line (coord_of horiz) (other_of horiz) level h) (a :: zs) ->
    In z zs -> (coord_of horiz a < coord_of horiz z)%Q.
  Proof.
    induction zs as [|b zs IH]; intros a z C HI; [contradiction|].
    destruct C as [(_ & _ & C1 & _) C2].
    destruct HI as [<-|HI]; [Lqa.lra|]. specialize (IH b z C2 HI). Lqa.lra.
  Qed.

  Lemma chain_level horiz level h : forall zs, (2 <= List.length zs)%nat ->
    chain (on_line (coord_of horiz) (other_of horiz) level h) zs ->
    forall z, In z zs -> (other_of horiz z == level)%Q.
  Proof.
    induction zs as [|a zs IH]; intros HL C z HI; [contradiction|].
    destruct zs as [|b zs]; [cbn in HL; lia|]. destruct C as [(C1 & C2 & C3 & C4) C5].
    destruct HI as [<-|HI]; [exact C1|].
    destruct zs as [|c zs]; [destruct HI as [<-|[]]; exact C2|].
    apply IH; [cbn; lia|exact C5|exact HI].
  Qed.

  Lemma chain_snoc_mono horiz level h : forall mid a b z,
    chain (on_line (coord_of horiz) (other_of horiz) level h) (a :: mid ++ [b]) ->
    In z (a :: mid) -> (coord_of horiz z < coord_of horiz b)%Q.
  Proof.
    induction mid as [|c mid IH]; intros a b z C HI.
    - destruct C as [(_ & _ & C1 & _) _]. destruct HI as [<-|[]]. Lqa.lra.
    - destruct C as [(_ & _ & C1 & _) C2]. destruct HI as [<-|HI].
      + specialize (IH c b c C2 (or_introl eq_refl)). Lqa.lra.
      + apply (IH c b z C2 HI).
  Qed.

  (** Exactness under a modulus condition on the true angle (C37). *)
  Lemma line_exact horiz level fuel t1 t2 st st' p (theta radius : Q -> R) :
    (t1 < t2)%Q -> level_free st horiz level ->
    (forall z z', ceq z z' -> f z = f z') ->
    (forall t, (t1 <= t)%Q -> (t <= t2)%Q -> polar (f (mkpoint horiz level t)) (radius t) (theta t)) ->
    (forall t t', (t1 <= t)%Q -> (t < t')%Q -> (t' <= t2)%Q ->
       (t' - t <= (t2 - t1) / inject_Z (Z.of_nat (n - 1)))%Q -> (Rabs (theta t' - theta t) < PI)%R) ->
    sum_line f delta mp n prec fuel 0 (mkpoint horiz level t1) (mkpoint horiz level t2) st = (st', SumOk [] p) ->
    p = (theta t2 - theta t1)%R.
  Proof.
    intros L HF Hf HP HM H.
    destruct (fresh_line horiz level fuel t1 t2 st st' p L HF H) as (mid & E & HZ & HC & _).
    set (a := mkpoint horiz level t1) in *. set (b := mkpoint horiz level t2) in *.
    assert (Ca : coord_of horiz a = t1) by (destruct horiz; reflexivity).
    assert (Cb : coord_of horiz b = t2) by (destruct horiz; reflexivity).
    assert (LEN : (2 <= List.length (a :: mid ++ [b]))%nat) by (cbn; rewrite app_length; cbn; lia).
    assert (RNG : forall z, In z (a :: mid ++ [b]) -> (t1 <= coord_of horiz z)%Q /\ (coord_of horiz z <= t2)%Q).
    { intros z HI. split.
      - destruct HI as [<-|HI]; [rewrite Ca; Lqa.lra|].
        pose proof (chain_mono _ _ _ _ _ _ HC HI) as M. rewrite Ca in M. Lqa.lra.
      - rewrite app_comm_cons in HI. apply in_app_or in HI as [HI|[<-|[]]].
        + pose proof (chain_snoc_mono _ _ _ _ _ _ _ HC HI) as M. rewrite Cb in M. Lqa.lra.
        + rewrite Cb. Lqa.lra. }
    rewrite E, (chain_exact f (fun z => theta (coord_of horiz z)) (fun z => radius (coord_of horiz z))).
    - rewrite app_comm_cons, last_last, Ca, Cb. reflexivity.
    - intros z HI. destruct (RNG z HI) as [R1 R2]. specialize (HP _ R1 R2).
      rewrite (Hf z (mkpoint horiz level (coord_of horiz z))); [exact HP|].
      pose proof (chain_level _ _ _ _ LEN HC z HI) as LV.
      destruct horiz; split; cbn in *; (reflexivity || exact LV).
    - assert (G : forall l, (forall z, In z l -> (t1 <= coord_of horiz z)%Q /\ (coord_of horiz z <= t2)%Q) ->
        chain (on_line (coord_of horiz) (other_of horiz) level ((t2 - t1) / inject_Z (Z.of_nat (n - 1)))) l ->
        chain (fun z z' => (Rabs (theta (coord_of horiz z') - theta (coord_of horiz z)) < PI)%R) l).
      { induction l as [|x l IH]; intros RG C; [exact I|]. destruct l as [|y l]; [exact I|].
        destruct C as [(_ & _ & C1 & C2) C3]. split.
        - apply HM; [apply RG; left; reflexivity|Lqa.lra|apply RG; right; left; reflexivity|exact C2].
        - apply IH; [|exact C3]. intros z Hz. apply RG. right. exact Hz. }
      apply G; assumption.
  Qed.

  (** The four sides of a rectangle, on an estimator that has not seen them (C36). *)
  Lemma line_angle horiz level fuel t1 t2 st st' p r t : (t1 < t2)%Q -> level_free st horiz level ->
    sum_line f delta mp n prec fuel 0 (mkpoint horiz level t1) (mkpoint horiz level t2) st = (st', SumOk [] p) ->
    polar (f (mkpoint horiz level t1)) r t -> exists r', polar (f (mkpoint horiz level t2)) r' (t + p).
  Proof.
    intros L HF H HP. destruct (fresh_line horiz level fuel t1 t2 st st' p L HF H) as (mid & -> & HZ & _).
    eapply chain_angle; eauto.
  Qed.

  Lemma line_frame horiz level fuel t1 t2 st st' p horiz' level' : (t1 < t2)%Q -> level_free st horiz level ->
    sum_line f delta mp n prec fuel 0 (mkpoint horiz level t1) (mkpoint horiz level t2) st = (st', SumOk [] p) ->
    (horiz' <> horiz \/ ~ (level' == level)%Q) -> level_free st horiz' level' -> level_free st' horiz' level'.
  Proof.
    intros L HF H D HF'.
    destruct (fresh_line horiz level fuel t1 t2 st st' p L HF H) as (mid & _ & _ & _ & F1 & F2).
    unfold level_free in *. destruct (Bool.bool_dec horiz' horiz) as [->|NE].
    - destruct D as [D|D]; [contradiction|].
      assert (G : dget okey_eqb (level', 0) (dset okey_eqb (level, 0) ([] : list ((Q * side) * entry R))
                 (if horiz then horizontal st else vertical st)) = None).
      { rewrite (dget_dset okey_eqb okey_t okey_s).
        destruct (okey_eqb (level', 0) (level, 0)) eqn:K; [|exact HF'].
        apply okey_iff in K as [K _]. cbn in K. contradiction. }
      destruct horiz; rewrite F2, level_store; exact G.
    - destruct horiz, horiz'; try congruence; rewrite F1; exact HF'.
  Qed.

  Lemma rectangle_whole_turns x1 x2 y1 y2 fuel1 fuel2 fuel3 fuel4 st st1 st2 st3 st4 p1 p2 p3 p4 :
    (x1 < x2)%Q -> (y1 < y2)%Q ->
    level_free st true y1 -> level_free st true y2 -> level_free st false x1 -> level_free st false x2 ->
    sum_line f delta mp n prec fuel1 0 (x1, y1) (x2, y1) st = (st1, SumOk [] p1) ->
    sum_line f delta mp n prec fuel2 0 (x2, y1) (x2, y2) st1 = (st2, SumOk [] p2) ->
    sum_line f delta mp n prec fuel3 0 (x2, y2) (x1, y2) st2 = (st3, SumOk [] p3) ->
    sum_line f delta mp n prec fuel4 0 (x1, y2) (x1, y1) st3 = (st4, SumOk [] p4) ->
    (exists k : Z, p1 + p2 + p3 + p4 = 2 * PI * IZR k)%R.
  Proof.
    intros Lx Ly F1 F2 F3 F4 E1 E2 E3 E4.
    rewrite sum_line_swap in E3 by Lqa.lra. rewrite sum_line_swap_vertical in E4 by Lqa.lra.
    destruct (sum_line f delta mp n prec fuel3 0 (x1, y2) (x2, y2) st2) as [u3 r3] eqn:E3'.
    destruct (sum_line f delta mp n prec fuel4 0 (x1, y1) (x1, y2) st3) as [u4 r4] eqn:E4'.
    cbn [fst snd] in E3, E4. destruct r3 as [z3 q3|e|]; try discriminate. destruct r4 as [z4 q4|e|]; try discriminate.
    cbn [negated] in E3, E4. injection E3 as -> -> <-. injection E4 as -> -> <-.
    assert (Ny : ~ (y2 == y1)%Q) by Lqa.lra. assert (Nx : ~ (x1 == x2)%Q) by Lqa.lra.
    change (x1, y1) with (mkpoint true y1 x1) in E1. change (x2, y1) with (mkpoint true y1 x2) in E1.
    change (x2, y1) with (mkpoint false x2 y1) in E2. change (x2, y2) with (mkpoint false x2 y2) in E2.
    change (x1, y2) with (mkpoint true y2 x1) in E3'. change (x2, y2) with (mkpoint true y2 x2) in E3'.
    change (x1, y1) with (mkpoint false x1 y1) in E4'. change (x1, y2) with (mkpoint false x1 y2) in E4'.
    assert (T1 : level_free st1 false x2)
      by (refine (line_frame true y1 fuel1 x1 x2 st st1 p1 false x2 Lx F1 E1 _ F4); left; discriminate).
    assert (T2 : level_free st1 true y2)
      by (refine (line_frame true y1 fuel1 x1 x2 st st1 p1 true y2 Lx F1 E1 _ F2); right; exact Ny).
    assert (T3 : level_free st1 false x1)
      by (refine (line_frame true y1 fuel1 x1 x2 st st1 p1 false x1 Lx F1 E1 _ F3); left; discriminate).
    assert (U2 : level_free st2 true y2)
      by (refine (line_frame false x2 fuel2 y1 y2 st1 st2 p2 true y2 Ly T1 E2 _ T2); left; discriminate).
    assert (U3 : level_free st2 false x1)
      by (refine (line_frame false x2 fuel2 y1 y2 st1 st2 p2 false x1 Ly T1 E2 _ T3); right; exact Nx).
    assert (V3 : level_free st3 false x1)
      by (refine (line_frame true y2 fuel3 x1 x2 st2 st3 q3 false x1 Lx U2 E3' _ U3); left; discriminate).
    destruct (fresh_line true y1 fuel1 x1 x2 st st1 p1 Lx F1 E1) as (mid & _ & HZ & _).
    assert (NZ : nonzero (f (x1, y1))).
    { apply no_zeros in HZ. inversion HZ; subst. assumption. }
    destruct (arctan2_polar _ NZ) as [r P].
    destruct (line_angle true y1 fuel1 x1 x2 st st1 p1 r _ Lx F1 E1 P) as [rb Pb].
    destruct (line_angle false x2 fuel2 y1 y2 st1 st2 p2 rb _ Ly T1 E2 Pb) as [rc Pc].
    destruct (line_angle false x1 fuel4 y1 y2 st3 st4 q4 r _ Ly V3 E4' P) as [rd Pd].
    destruct (line_angle true y2 fuel3 x1 x2 st2 st3 q3 rd _ Lx U2 E3' Pd) as [rc' Pc'].
    cbn [mkpoint] in *.
    destruct (polar_unique _ _ _ _ _ Pc' Pc) as [k K]. exists k. Lra.lra.
  Qed.
End Line.
