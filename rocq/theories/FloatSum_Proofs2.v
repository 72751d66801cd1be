(** * The argument principle with rounded phases (C90) *)
From Coq Require Import Reals Qreals.
From Verif Require Import PyBase Cache_Proofs Refine_Model Zeros_Spec Float_Model Float_Spec Sum_Model Sum_Spec Angle_Proofs
  Sum_Proofs Sum_Proofs2 Sum_Proofs3 Sum_Proofs4 Sum_Proofs5 Sum_Proofs6 Arg_Spec Arg_Proofs Arg_Proofs2 Arg_Proofs3 Arg_Proofs4
  FloatSum_Model FloatSum_Spec FloatSum_Proofs.
From Coq Require Import Lqa Lra.
Open Scope R_scope.

(** ** One line, for any phases *)
Section Any.
  Variables (fz : cplx -> bool) (phase : cplx -> cplx -> Q) (dphi : Q) (close : cplx -> cplx -> bool)
    (n : nat) (prec : Z * Z).
  Hypothesis dphi_pos : (0 < dphi)%Q.
  Hypothesis dphi_double : is_double dphi.
  Hypothesis n_big : (2 <= n)%nat.

  Notation flarge := (fun l : list Q => Qle_bool dphi (Qabs (hd 0%Q l))).
  Notation ffact := (fun idx (l : list Q) => ffactor dphi idx (hd 0%Q l)).
  Notation single := (fun z z' : cplx => [phase z z']).

  Lemma ffact_large : forall i p, flarge p = true -> (3 <= ffact (S i) p)%nat.
  Proof. intros i p H. apply ffactor_large; assumption. Qed.

  Lemma concat_increments zs : forall acc, fold_left (@app Q) (increments single zs) acc = acc ++ increments phase zs.
  Proof.
    induction zs as [|z zs IH]; intro acc; [cbn; rewrite app_nil_r; reflexivity|].
    destruct zs as [|z' zs]; [cbn; rewrite app_nil_r; reflexivity|].
    change (increments single (z :: z' :: zs)) with ([phase z z'] :: increments single (z' :: zs)).
    change (increments phase (z :: z' :: zs)) with (phase z z' :: increments phase (z' :: zs)).
    cbn [fold_left]. rewrite IH, <- app_assoc. reflexivity.
  Qed.

  Lemma fsum_swap fuel x1 x2 y st st' found t : (x1 < x2)%Q ->
    fsum_line fz phase dphi close n prec fuel 0 (x1, y) (x2, y) st = (st', SumOk found t) ->
    fsum_line fz phase dphi close n prec fuel 0 (x2, y) (x1, y) st = (st', SumOk found (map Qopp t)).
  Proof.
    intros L H. unfold fsum_line, sumLine in *. cbn [re im fst snd] in *. rewrite Qeq_bool_refl in *.
    rewrite (retrieve_swap _ _ _ _ _ _ _ _ _ _ _ _ _ _ _ _ x1 x2 _ L).
    destruct (retrieveCached _ _ _ _ _ _ _ _ _ _ _ _ _ _ _ _ x1 x2 _); [|discriminate|discriminate].
    injection H as <- <- <-. reflexivity.
  Qed.
  Lemma fsum_swap_vertical fuel x y1 y2 st st' found t : (y1 < y2)%Q ->
    fsum_line fz phase dphi close n prec fuel 0 (x, y1) (x, y2) st = (st', SumOk found t) ->
    fsum_line fz phase dphi close n prec fuel 0 (x, y2) (x, y1) st = (st', SumOk found (map Qopp t)).
  Proof.
    intros L H. unfold fsum_line, sumLine in *. cbn [re im fst snd] in *. rewrite Qeq_bool_refl in *.
    assert (Qeq_bool y1 y2 = false) as E1 by (apply Qeqb_false; Lqa.lra).
    assert (Qeq_bool y2 y1 = false) as E2 by (apply Qeqb_false; Lqa.lra).
    rewrite E1 in H. rewrite E2.
    rewrite (retrieve_swap _ _ _ _ _ _ _ _ _ _ _ _ _ _ _ _ y1 y2 _ L).
    destruct (retrieveCached _ _ _ _ _ _ _ _ _ _ _ _ _ _ _ _ y1 y2 _); [|discriminate|discriminate].
    injection H as <- <- <-. reflexivity.
  Qed.

  (** A bound on the number of phases of a generated line, if there is one. *)
  Variables (limit : nat -> Prop) (fuel : nat).
  Hypothesis limited : forall a b zs phis found,
    genPhiArr [] fz single flarge ffact close n prec fuel 0 a b = Gen zs phis found -> limit (List.length phis).

  (** A line on a fresh level. *)
  Lemma fresh_terms horiz level t1 t2 st :
    (t1 < t2)%Q -> (100 * n + 3 <= fuel)%nat -> fresh_level st horiz level ->
    (forall z, (other_of horiz z == level)%Q -> (t1 <= coord_of horiz z)%Q -> (coord_of horiz z <= t2)%Q -> fz z = false) ->
    exists mid st', let zs := mkpoint horiz level t1 :: mid ++ [mkpoint horiz level t2] in
      fsum_line fz phase dphi close n prec fuel 0 (mkpoint horiz level t1) (mkpoint horiz level t2) st =
        (st', SumOk [] (increments phase zs)) /\ limit (List.length (increments phase zs)) /\
      chain (on_line (coord_of horiz) (other_of horiz) level ((t2 - t1) / inject_Z (Z.of_nat (n - 1)))) zs /\
      (forall horiz' level', horiz' <> horiz \/ ~ (level' == level)%Q -> fresh_level st horiz' level' -> fresh_level st' horiz' level').
  Proof.
    intros Ht Hf HF HC.
    set (h := ((t2 - t1) / inject_Z (Z.of_nat (n - 1)))%Q) in *.
    set (I := fun z => (other_of horiz z == level)%Q /\ (t1 <= coord_of horiz z)%Q /\ (coord_of horiz z <= t2)%Q).
    assert (I_clean : forall z, I z -> fz z = false) by (intros z (Z1 & Z2 & Z3); apply HC; assumption).
    assert (I_lin : forall a b m z, I a -> I b -> In z (linspaceC a b m) -> I z).
    { intros a b m z Ia Ib Hz. destruct m as [|[|m]]; [contradiction|destruct Hz as [<-|[]]; exact Ia|].
      cbn [linspaceC] in Hz. destruct Hz as [<-|Hz]; [exact Ia|].
      apply in_app_or in Hz as [Hz|[<-|[]]]; [|exact Ib].
      apply in_map_iff in Hz as (i & <- & Hi). apply in_seq in Hi.
      assert (T : exists t, (0 <= t)%Q /\ (t <= 1)%Q /\
        linpoint a b (S m) i = (re a + t * (re b - re a), im a + t * (im b - im a))%Q).
      { exists (inject_Z (Z.of_nat i) / inject_Z (Z.of_nat (S m)))%Q.
        assert (0 < inject_Z (Z.of_nat (S m)))%Q by apply steps_pos.
        split; [|split; [|reflexivity]].
        - apply Qle_shift_div_l; [assumption|]. rewrite Qmult_0_l. change 0%Q with (inject_Z 0). rewrite <- Zle_Qle. lia.
        - apply Qle_shift_div_r; [assumption|]. rewrite Qmult_1_l. rewrite <- Zle_Qle. lia. }
      destruct T as (t & T0 & T1 & ->). destruct Ia as (A1 & A2 & A3), Ib as (B1 & B2 & B3).
      unfold I. destruct horiz; cbn [other_of coord_of re im fst snd] in *.
      - split; [rewrite A1, B1; ring|]. split; Lqa.nra.
      - split; [rewrite A1, B1; ring|]. split; Lqa.nra. }
    assert (Ia : I (mkpoint horiz level t1)) by (unfold I; destruct horiz; cbn; repeat split; try reflexivity; Lqa.lra).
    assert (Ib : I (mkpoint horiz level t2)) by (unfold I; destruct horiz; cbn; repeat split; try reflexivity; Lqa.lra).
    destruct (clean_genPhi [] fz single flarge ffact close n prec
      ffact_large I I_lin I_clean fuel _ _ ltac:(lia) Hf Ia Ib) as (zs & phis & G).
    assert (HN : (0 < inject_Z (Z.of_nat (n - 1)))%Q).
    { change 0%Q with (inject_Z 0). rewrite <- Zlt_Qlt. clear - n_big. lia. }
    assert (HH : (h * inject_Z (Z.of_nat (n - 1)) == t2 - t1)%Q) by (unfold h; field; Lqa.lra).
    destruct (genPhi_chain [] fz single flarge ffact close n prec
      ffact_large (on_line (coord_of horiz) (other_of horiz) level h)
      (on_line_subdivide _ _ _ _ (axes_of horiz)) fuel (mkpoint horiz level t1) (mkpoint horiz level t2) zs phis n_big)
      as (C1 & C2 & C3 & mid & C4).
    { apply linspaceC_on_line; [apply axes_of| |exact n_big]. unfold on_line. rewrite HH.
      destruct horiz; cbn; repeat split; try reflexivity; Lqa.lra. }
    { exact G. }
    subst phis zs. exists mid.
    set (zs := mkpoint horiz level t1 :: mid ++ [mkpoint horiz level t2]) in *.
    set (c := if horiz then horizontal st else vertical st).
    set (c' := storeCache level 0 t1 t2 (zs, increments single zs) (dset okey_eqb (level, 0%Z) [] c)).
    exists (if horiz then mkSum c' (vertical st) else mkSum (horizontal st) c'). cbn zeta.
    split; [|split; [|split; [exact C2|]]].
    2:{ pose proof (limited _ _ _ _ _ G) as LM. rewrite !increments_length in *. exact LM. }
    - unfold fsum_line, sumLine. destruct horiz; cbn [mkpoint re im fst snd coord_of] in *.
      + rewrite Qeq_bool_refl. rewrite retrieve_miss; [|exact Ht|exact HF].
        rewrite G. unfold asum. rewrite concat_increments. reflexivity.
      + assert (Qeq_bool t1 t2 = false) as -> by (apply Qeqb_false; Lqa.lra). rewrite Qeq_bool_refl.
        rewrite retrieve_miss; [|exact Ht|exact HF].
        rewrite G. unfold asum. rewrite concat_increments. reflexivity.
    - intros horiz' level' NE HF'. unfold fresh_level in *.
      assert (K : horiz' = horiz -> dget okey_eqb (level', 0%Z) c' = None).
      { intros ->. destruct NE as [NE|NE]; [contradiction|]. unfold c'. rewrite level_store.
        rewrite (dget_dset okey_eqb okey_t okey_s).
        destruct (okey_eqb (level', 0%Z) (level, 0%Z)) eqn:K; [|exact HF'].
        apply okey_iff in K as [K _]. cbn in K. contradiction. }
      destruct horiz, horiz'; cbn [horizontal vertical]; first [apply K; reflexivity|exact HF'].
  Qed.
End Any.

(** ** Computed phases against true ones *)
Section Rounded.
  Variables (f : cplx -> cR) (zeros : list point) (L : R) (D : rect) (rho theta : cplx -> R).
  Hypothesis f_proper : forall z z', ceq z z' -> f z = f z'.
  Hypothesis L_pos : 0 <= L.
  Hypothesis f_eq : forall z, in_rect D z -> 0 < rho z /\
       f z = cmulR (zero_product zeros z) (rho z * cos (theta z), rho z * sin (theta z)).
  Hypothesis theta_lip : forall z z', in_rect D z -> in_rect D z' ->
       Rabs (theta z' - theta z) <= L * (Rabs (Q2R (re z' - re z)) + Rabs (Q2R (im z' - im z))).
  Variables (eps eta : R).
  Hypothesis eta_small : eta < PI.
  Variables (fz : cplx -> bool) (phase : cplx -> cplx -> Q).
  Hypothesis accurate : phases_within eps eta f D phase.

  Notation Th := (Theta zeros theta).
  Notation step := (calm_step f zeros D theta eta).
  Notation fine := (fine f zeros D theta eta).

  Lemma step_phase horiz level z z' : step horiz level z z' ->
    is_double (phase z z') /\ Rabs (Q2R (phase z z') - phase_step f z z') <= eps /\ Rabs (phase_step f z z') <= eta.
  Proof.
    intro S. pose proof (calm_chain_sum f zeros D theta f_proper eta eta_small horiz level [z'] z (conj S Logic.I)
      ltac:(discriminate)) as E.
    destruct S as (S1 & S2 & S3 & (C1 & C2 & C3 & C4 & C5)).
    assert (B : Rabs (phase_step f z z') <= eta).
    { unfold Rsum in E. cbn [increments last fold_left] in E. rewrite Rplus_0_l in E. rewrite E.
      apply C5; Lqa.lra. }
    assert (Iz : in_rect D z).
    { revert C2. unfold in_rect. destruct horiz; cbn [mkpoint re im fst snd coord_of other_of] in *; intros; Lqa.lra. }
    assert (Iz' : in_rect D z').
    { revert C3. unfold in_rect. destruct horiz; cbn [mkpoint re im fst snd coord_of other_of] in *; intros; Lqa.lra. }
    assert (P : parallel z z').
    { unfold parallel. destruct horiz; cbn [other_of] in *; [left|right]; rewrite S1, S2; reflexivity. }
    destruct (accurate z z' Iz Iz' P B) as [A1 A2]. auto.
  Qed.

  Lemma Rsum_cons x l : Rsum (x :: l) = x + Rsum l.
  Proof.
    unfold Rsum. cbn. rewrite Rplus_0_l. assert (G : forall l a, fold_left Rplus l a = a + fold_left Rplus l 0).
    { clear. intro l. induction l as [|y l IH]; intro a; cbn; [ring|]. rewrite (IH (a + y)), (IH (0 + y)). ring. }
    apply G.
  Qed.

  (** Terms of a line: doubles, close to the true total, of bounded magnitude. *)
  Definition good_terms (t : list Q) (true_value : R) : Prop :=
    (1 <= List.length t)%nat /\ (forall x, In x t -> is_double x) /\
    Rabs (total t - true_value) <= INR (List.length t) * eps /\
    magnitudes t <= INR (List.length t) * (eta + eps).

  Lemma chain_terms horiz level zs : chain (step horiz level) zs ->
    (forall x, In x (increments phase zs) -> is_double x) /\
    Rabs (total (increments phase zs) - Rsum (increments (phase_step f) zs)) <= INR (List.length (increments phase zs)) * eps /\
    magnitudes (increments phase zs) <= INR (List.length (increments phase zs)) * (eta + eps).
  Proof.
    induction zs as [|z zs IH]; intro C.
    - cbn. unfold Rsum. cbn. rewrite Rminus_0_r, Rabs_R0. split; [intros x []|]. split; lra.
    - destruct zs as [|z' zs].
      + cbn. unfold Rsum. cbn. rewrite Rminus_0_r, Rabs_R0. split; [intros x []|]. split; lra.
      + destruct C as [S C]. destruct (IH C) as (J1 & J2 & J3). destruct (step_phase _ _ _ _ S) as (P1 & P2 & P3).
        change (increments phase (z :: z' :: zs)) with (phase z z' :: increments phase (z' :: zs)).
        change (increments (phase_step f) (z :: z' :: zs)) with (phase_step f z z' :: increments (phase_step f) (z' :: zs)).
        set (t := increments phase (z' :: zs)) in *. set (q := increments (phase_step f) (z' :: zs)) in *.
        rewrite Rsum_cons. cbn [total magnitudes List.length]. rewrite S_INR.
        split; [intros x [<-|Hx]; [exact P1|apply J1, Hx]|].
        split.
        * replace (Q2R (phase z z') + total t - (phase_step f z z' + Rsum q))
            with ((Q2R (phase z z') - phase_step f z z') + (total t - Rsum q)) by ring.
          eapply Rle_trans; [apply Rabs_triang|]. lra.
        * pose proof (Rabs_triang (Q2R (phase z z') - phase_step f z z') (phase_step f z z')) as T.
          replace (Q2R (phase z z') - phase_step f z z' + phase_step f z z') with (Q2R (phase z z')) in T by ring. lra.
  Qed.

  Lemma good_opp t v : good_terms t v -> good_terms (map Qopp t) (- v).
  Proof.
    intros (A & B & C & M). unfold good_terms. rewrite map_length.
    assert (T : total (map Qopp t) = - total t).
    { clear. induction t as [|x t IH]; cbn; [ring|]. rewrite IH, Q2R_opp. ring. }
    assert (M' : magnitudes (map Qopp t) = magnitudes t).
    { clear. induction t as [|x t IH]; cbn; [ring|]. rewrite IH, Q2R_opp, Rabs_Ropp. ring. }
    rewrite T, M'. split; [exact A|]. split.
    - intros x Hx. apply in_map_iff in Hx as (y & <- & Hy). apply opp_double, B, Hy.
    - split; [|exact M]. replace (- total t - - v) with (- (total t - v)) by ring. rewrite Rabs_Ropp. exact C.
  Qed.

  Lemma good_app t v t' v' : good_terms t v -> good_terms t' v' -> good_terms (t ++ t') (v + v').
  Proof.
    intros (A & B & C & M) (A' & B' & C' & M'). unfold good_terms.
    rewrite app_length, total_app, magnitudes_app, plus_INR. split; [lia|].
    split; [intros x Hx; apply in_app_or in Hx as [Hx|Hx]; auto|]. split; [|lra].
    replace (total t + total t' - (v + v')) with ((total t - v) + (total t' - v')) by ring.
    eapply Rle_trans; [apply Rabs_triang|]. lra.
  Qed.

  Variables (dphi : Q) (close : cplx -> cplx -> bool) (n : nat) (prec : Z * Z) (fuel : nat).
  Hypothesis dphi_pos : (0 < dphi)%Q.
  Hypothesis dphi_double : is_double dphi.
  Hypothesis n_big : (2 <= n)%nat.
  Hypothesis fuel_big : (100 * n + 3 <= fuel)%nat.
  Hypothesis tests : zeros_only f D fz.
  Variable limit : nat -> Prop.
  Hypothesis limited : forall a b zs phis found,
    genPhiArr [] fz (fun z z' : cplx => [phase z z']) (fun l : list Q => Qle_bool dphi (Qabs (hd 0%Q l)))
      (fun idx (l : list Q) => ffactor dphi idx (hd 0%Q l)) close n prec fuel 0 a b = Gen zs phis found -> limit (List.length phis).
  Notation fline := (fsum_line fz phase dphi close n prec fuel 0).

  Lemma fine_terms horiz level t1 t2 st : fine n horiz level t1 t2 -> fresh_level st horiz level ->
    exists st' t, fline (mkpoint horiz level t1) (mkpoint horiz level t2) st = (st', SumOk [] t) /\ limit (List.length t) /\
      good_terms t (Th horiz level t2 - Th horiz level t1) /\
      (forall horiz' level', horiz' <> horiz \/ ~ (level' == level)%Q -> fresh_level st horiz' level' -> fresh_level st' horiz' level').
  Proof.
    intros [Ht HF] HL.
    destruct (fresh_terms fz phase dphi close n prec dphi_pos dphi_double n_big limit fuel limited horiz level t1 t2 st Ht fuel_big HL)
      as (mid & st' & E & LM & C & FR).
    { intros z Z1 Z2 Z3. assert (Hh : (0 < (t2 - t1) / inject_Z (Z.of_nat (n - 1)))%Q) by (apply chunk; assumption).
      destruct (HF (coord_of horiz z) (coord_of horiz z) Z2 ltac:(Lqa.lra) Z3 ltac:(Lqa.lra)) as (_ & C2 & _ & C4 & _).
      destruct (C4 (coord_of horiz z) ltac:(Lqa.lra) ltac:(Lqa.lra)) as [r R].
      apply tests.
      - revert C2. unfold in_rect. destruct horiz; cbn [mkpoint re im fst snd coord_of other_of] in *; intros; Lqa.lra.
      - rewrite (f_proper z (mkpoint horiz level (coord_of horiz z))).
        + exact (polar_nonzero _ _ _ R).
        + destruct horiz; split; cbn in *; auto; reflexivity. }
    cbn zeta in E, C, LM. set (zs := mkpoint horiz level t1 :: mid ++ [mkpoint horiz level t2]) in *.
    assert (CS : chain (step horiz level) zs).
    { assert (RNG : forall z, In z zs -> (t1 <= coord_of horiz z)%Q /\ (coord_of horiz z <= t2)%Q).
      { assert (Ca : coord_of horiz (mkpoint horiz level t1) = t1) by (destruct horiz; reflexivity).
        assert (Cb : coord_of horiz (mkpoint horiz level t2) = t2) by (destruct horiz; reflexivity).
        unfold zs in *. intros z HI. split.
        - destruct HI as [<-|HI]; [rewrite Ca; Lqa.lra|].
          pose proof (chain_mono _ _ _ _ _ _ C HI) as M. rewrite Ca in M. Lqa.lra.
        - rewrite app_comm_cons in HI. apply in_app_or in HI as [HI|[<-|[]]].
          + pose proof (chain_snoc_mono _ _ _ _ _ _ _ C HI) as M. rewrite Cb in M. Lqa.lra.
          + rewrite Cb. Lqa.lra. }
      revert C RNG. generalize zs. intro l.
      induction l as [|a l IH]; intros C RNG; [exact Logic.I|]. destruct l as [|b l]; [exact Logic.I|].
      destruct C as [(S1 & S2 & S3 & S4) C].
      split; [|apply (IH C (fun z Hz => RNG z (or_intror Hz)))].
      split; [exact S1|]. split; [exact S2|]. split; [Lqa.lra|].
      apply HF; [apply RNG; left; reflexivity|Lqa.lra|apply RNG; right; left; reflexivity|exact S4]. }
    exists st', (increments phase zs). split; [exact E|]. split; [exact LM|]. split; [|exact FR].
    destruct (chain_terms horiz level zs CS) as (J1 & J2 & J3).
    assert (V : Rsum (increments (phase_step f) zs) = Th horiz level t2 - Th horiz level t1).
    { unfold zs in *. rewrite (calm_chain_sum f zeros D theta f_proper eta eta_small horiz level) by (exact CS || destruct mid; discriminate).
      rewrite app_comm_cons, last_last. destruct horiz; reflexivity. }
    rewrite V in J2. split; [|split; [exact J1|split; [exact J2|exact J3]]].
    rewrite increments_length. unfold zs. cbn. rewrite app_length. cbn. lia.
  Qed.

  Lemma rounded_rectangle r st : inside D r -> wide r -> well_sampled n eta L zeros r ->
    fresh_level st true (y1 r) -> fresh_level st true (y2 r) -> fresh_level st false (x1 r) -> fresh_level st false (x2 r) ->
    exists st1 st2 st3 st4 t1 t2 t3 t4,
      fline (x1 r, y1 r) (x2 r, y1 r) st = (st1, SumOk [] t1) /\
      fline (x2 r, y1 r) (x2 r, y2 r) st1 = (st2, SumOk [] t2) /\
      fline (x2 r, y2 r) (x1 r, y2 r) st2 = (st3, SumOk [] t3) /\
      fline (x1 r, y2 r) (x1 r, y1 r) st3 = (st4, SumOk [] t4) /\
      (1 <= List.length t1 /\ 1 <= List.length t2 /\ 1 <= List.length t3 /\ 1 <= List.length t4)%nat /\
      limit (List.length t1) /\ limit (List.length t2) /\ limit (List.length t3) /\ limit (List.length t4) /\
      good_terms (t1 ++ t2 ++ t3 ++ t4) (2 * PI * INR (count zeros r)).
  Proof.
    intros HI HW HS F1 F2 F3 F4.
    pose proof (sampled_fine f zeros L D rho theta L_pos f_eq theta_lip eta n r n_big HI HW HS) as FI. pose proof HW as [Wx Wy].
    assert (Ny : ~ (y2 r == y1 r)%Q) by Lqa.lra. assert (Nx : ~ (x1 r == x2 r)%Q) by Lqa.lra.
    pose proof (fun h l a b Hin st => fine_terms h l a b st (FI h l a b Hin)) as G.
    destruct (G true (y1 r) (x1 r) (x2 r) ltac:(cbn; tauto) st F1) as (st1 & t1 & E1 & M1 & G1 & R1).
    destruct (G false (x2 r) (y1 r) (y2 r) ltac:(cbn; tauto) st1) as (st2 & t2 & E2 & M2 & G2 & R2).
    { apply R1; [left; discriminate|exact F4]. }
    destruct (G true (y2 r) (x1 r) (x2 r) ltac:(cbn; tauto) st2) as (st3 & t3 & E3 & M3 & G3 & R3).
    { apply R2; [left; discriminate|]. apply R1; [right; exact Ny|exact F2]. }
    destruct (G false (x1 r) (y1 r) (y2 r) ltac:(cbn; tauto) st3) as (st4 & t4 & E4 & M4 & G4 & R4).
    { apply R3; [left; discriminate|]. apply R2; [right; exact Nx|]. apply R1; [left; discriminate|exact F3]. }
    exists st1, st2, st3, st4, t1, t2, (map Qopp t3), (map Qopp t4).
    split; [exact E1|]. split; [exact E2|].
    split; [apply fsum_swap; [exact Wx|exact E3]|].
    split; [apply fsum_swap_vertical; [exact Wy|exact E4]|].
    split; [rewrite !map_length; split; [apply G1|]; split; [apply G2|]; split; [apply G3|apply G4]|].
    rewrite !map_length. do 4 (split; [assumption|]).
    rewrite <- (winding_side zeros L theta eta n prec r HW HS).
    match goal with |- good_terms _ (?a + ?b - ?c - ?d) => replace (a + b - c - d) with (a + (b + (- c + - d))) by ring end.
    apply good_app; [exact G1|]. apply good_app; [exact G2|]. apply good_app; apply good_opp; assumption.
  Qed.
End Rounded.
