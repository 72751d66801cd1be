(** * Generated lines of a factorised function; C69 *)
From Coq Require Import Reals Qreals.
From Verif Require Import PyBase Refine_Model Zeros_Spec Sum_Model Sum_Spec Angle_Proofs
  Sum_Proofs Sum_Proofs2 Sum_Proofs3 Sum_Proofs4 Sum_Proofs5 Sum_Proofs6 Arg_Spec Arg_Proofs Arg_Proofs2.
From Coq Require Import Lqa Lra.
Open Scope R_scope.

Lemma Forall_first {A} (P : A -> Prop) k l : Forall P l -> Forall P (firstn k l).
Proof. rewrite <- (firstn_skipn k l) at 1. rewrite Forall_app. tauto. Qed.
Lemma Forall_skip {A} (P : A -> Prop) k l : Forall P l -> Forall P (skipn k l).
Proof. rewrite <- (firstn_skipn k l) at 1. rewrite Forall_app. tauto. Qed.

(** ** No zeros on the line: the refinement ends and finds none *)
Section Clean.
  Context {A : Type} (azero : A).
  Variables (fz : cplx -> bool) (dphase : cplx -> cplx -> A) (large : A -> bool)
    (factor : nat -> A -> nat) (close : cplx -> cplx -> bool) (numPts : nat) (precision : Z * Z).
  Hypothesis factor_large : forall i p, large p = true -> (3 <= factor (S i) p)%nat.
  Variable I : cplx -> Prop.
  Hypothesis I_linspace : forall a b m z, I a -> I b -> In z (linspaceC a b m) -> I z.
  Hypothesis I_clean : forall z, I z -> fz z = false.

  Notation loop := (phi_loop azero fz dphase large factor close numPts precision).

  Lemma clean_filter l : Forall I l -> filter fz l = [].
  Proof. induction 1 as [|z l Hz _ IH]; [reflexivity|]. cbn. rewrite (I_clean _ Hz). exact IH. Qed.

  Lemma clean_gen fuel a b m : (1 <= fuel)%nat -> I a -> I b ->
    genFuncArr fz precision fuel a b m = Some (linspaceC a b m, []).
  Proof.
    intros Hf Ha Hb. destruct fuel as [|fuel]; [lia|]. unfold genFuncArr. cbn [shift_loop].
    rewrite clean_filter; [reflexivity|]. apply Forall_forall. intros z. apply I_linspace; assumption.
  Qed.

  Lemma clean_loop : forall m zs phis idx fuel, lengths zs phis -> Forall I zs ->
    (MAX_Z_LENGTH * numPts < List.length zs + m)%nat -> (m + 1 < fuel)%nat ->
    exists zs' phis', loop fuel idx zs phis [] = Gen zs' phis' [].
  Proof.
    induction m as [|m IH]; intros zs phis idx fuel HL HI HM HF.
    - destruct fuel as [|fuel]; [lia|]. cbn [phi_loop]. destruct (first_index large phis); [|eauto].
      destruct (close _ _); [eauto|].
      assert (Nat.ltb (MAX_Z_LENGTH * numPts) (List.length zs) = true) as -> by (apply Nat.ltb_lt; lia). eauto.
    - destruct fuel as [|fuel]; [lia|]. cbn [phi_loop].
      destruct (first_index large phis) as [k|] eqn:FI; [|eauto].
      destruct (close _ _); [eauto|]. destruct (Nat.ltb _ _); [eauto|].
      destruct (first_index_some _ _ _ FI) as [Hk Hp]. unfold lengths in HL.
      assert (I0 : I (nth k zs (0, 0)%Q)) by (apply (proj1 (Forall_forall _ _) HI), nth_In; lia).
      assert (I1 : I (nth (S k) zs (0, 0)%Q)) by (apply (proj1 (Forall_forall _ _) HI), nth_In; lia).
      rewrite clean_gen by (assumption || lia).
      set (zRef := linspaceC _ _ _) in *.
      assert (LR : List.length zRef = factor (S idx) (nth k phis azero)) by apply linspaceC_length.
      pose proof (factor_large idx (nth k phis azero) (Hp _)) as FL.
      destruct (splice_length dphase k zs phis zRef HL Hk ltac:(lia)) as [S1 S2].
      rewrite app_nil_r. apply IH; [exact S1| |lia|lia].
      apply Forall_app. split; [apply Forall_first; exact HI|]. apply Forall_app. split; [|apply Forall_skip; exact HI].
      apply Forall_forall. intros z Hz.
      assert (Hz' : In z zRef).
      { destruct zRef as [|x zr]; [cbn in Hz; contradiction|]. right. cbn [tl] in Hz.
        rewrite removelast_firstn_len in Hz. rewrite <- (firstn_skipn (pred (List.length zr)) zr).
        apply in_or_app. left. exact Hz. }
      exact (I_linspace _ _ _ _ I0 I1 Hz').
  Qed.

  Lemma clean_genPhi fuel a b : (1 <= numPts)%nat -> (100 * numPts + 3 <= fuel)%nat -> I a -> I b ->
    exists zs phis, genPhiArr azero fz dphase large factor close numPts precision fuel 0 a b = Gen zs phis [].
  Proof.
    intros Hn Hf Ha Hb. unfold genPhiArr. cbn [Z.eqb]. rewrite clean_gen by (assumption || lia).
    apply (clean_loop (S (MAX_Z_LENGTH * numPts - numPts))).
    - unfold lengths. rewrite increments_length, linspaceC_length. lia.
    - apply Forall_forall. intros z. apply I_linspace; assumption.
    - rewrite linspaceC_length. unfold MAX_Z_LENGTH. lia.
    - unfold MAX_Z_LENGTH. lia.
  Qed.
End Clean.

(** ** Lines along which the argument is under control *)
Section Target.
  Variables (f : cplx -> cR) (zeros : list point) (L : R) (D : rect) (rho theta : cplx -> R).
  Hypothesis f_proper : forall z z', ceq z z' -> f z = f z'.
  Hypothesis L_pos : 0 <= L.
  Hypothesis f_eq : forall z, in_rect D z -> 0 < rho z /\
       f z = cmulR (zero_product zeros z) (rho z * cos (theta z), rho z * sin (theta z)).
  Hypothesis theta_lip : forall z z', in_rect D z -> in_rect D z' ->
       Rabs (theta z' - theta z) <= L * (Rabs (Q2R (re z' - re z)) + Rabs (Q2R (im z' - im z))).
  Variable eta : R.
  Hypothesis eta_small : eta < PI.

  Notation Th := (Theta zeros theta).

  (** Between the coordinates [a] and [b] the argument moves by at most eta. *)
  Definition calm (horiz : bool) (level a b : Q) : Prop :=
    (a <= b)%Q /\ in_rect D (mkpoint horiz level a) /\ in_rect D (mkpoint horiz level b) /\
    (forall t, (a <= t)%Q -> (t <= b)%Q -> exists r, polar (f (mkpoint horiz level t)) r (Th horiz level t)) /\
    (forall t t', (a <= t)%Q -> (t <= t')%Q -> (t' <= b)%Q -> Rabs (Th horiz level t' - Th horiz level t) <= eta).

  Lemma in_rect_between horiz level a b t : in_rect D (mkpoint horiz level a) -> in_rect D (mkpoint horiz level b) ->
    (a <= t)%Q -> (t <= b)%Q -> in_rect D (mkpoint horiz level t).
  Proof. unfold in_rect. destruct horiz; cbn [mkpoint re im fst snd]; intros; Lqa.lra. Qed.

  Lemma in_rect_eq horiz level level' t t' : (level == level')%Q -> (t == t')%Q ->
    in_rect D (mkpoint horiz level t) -> in_rect D (mkpoint horiz level' t').
  Proof. unfold in_rect. destruct horiz; cbn [mkpoint re im fst snd]; intros; Lqa.lra. Qed.

  Lemma calm_sub horiz level a b a' b' : calm horiz level a b -> (a <= a')%Q -> (a' <= b')%Q -> (b' <= b)%Q ->
    calm horiz level a' b'.
  Proof.
    intros (C1 & C2 & C3 & C4 & C5) H1 H2 H3. split; [exact H2|].
    split; [apply (in_rect_between horiz level a b); auto; Lqa.lra|].
    split; [apply (in_rect_between horiz level a b); auto; Lqa.lra|].
    split; intros; [apply C4|apply C5]; Lqa.lra.
  Qed.

  Lemma calm_eq horiz level level' a b a' b' : (level == level')%Q -> (a == a')%Q -> (b == b')%Q ->
    calm horiz level a b -> calm horiz level' a' b'.
  Proof.
    intros E0 E1 E2 (C1 & C2 & C3 & C4 & C5).
    assert (IN : forall t, (a' <= t)%Q -> (t <= b')%Q -> in_rect D (mkpoint horiz level t)).
    { intros t T1 T2. apply (in_rect_between horiz level a b); auto; Lqa.lra. }
    assert (IN' : forall t, (a' <= t)%Q -> (t <= b')%Q -> in_rect D (mkpoint horiz level' t)).
    { intros t T1 T2. apply (in_rect_eq horiz level level' t t E0 (Qeq_refl t)), IN; assumption. }
    assert (TH : forall t, (a' <= t)%Q -> (t <= b')%Q -> Th horiz level' t = Th horiz level t).
    { intros t T1 T2. symmetry. apply (Theta_ceq zeros L D theta theta_lip); auto; reflexivity. }
    split; [Lqa.lra|]. split; [apply IN'; Lqa.lra|]. split; [apply IN'; Lqa.lra|]. split.
    - intros t T1 T2. destruct (C4 t ltac:(Lqa.lra) ltac:(Lqa.lra)) as [r P]. exists r.
      rewrite TH by assumption. rewrite (f_proper _ (mkpoint horiz level t)); [exact P|].
      destruct horiz; split; cbn [mkpoint re im fst snd]; first [reflexivity|symmetry; exact E0].
    - intros t t' T1 T2 T3. rewrite !TH by Lqa.lra. apply C5; Lqa.lra.
  Qed.

  (** All pieces of the line that are not longer than the initial spacing are calm. *)
  Definition fine (n : nat) (horiz : bool) (level t1 t2 : Q) : Prop :=
    (t1 < t2)%Q /\ forall a b, (t1 <= a)%Q -> (a <= b)%Q -> (b <= t2)%Q ->
      (b - a <= (t2 - t1) / inject_Z (Z.of_nat (n - 1)))%Q -> calm horiz level a b.

  (** Neighbouring samples. *)
  Definition calm_step (horiz : bool) (level : Q) (z z' : cplx) : Prop :=
    (other_of horiz z == level)%Q /\ (other_of horiz z' == level)%Q /\
    (coord_of horiz z < coord_of horiz z')%Q /\ calm horiz level (coord_of horiz z) (coord_of horiz z').

  Lemma radius_unique (v : cR) r t : polar v r t -> polar v (sqrt (fst v * fst v + snd v * snd v)) t.
  Proof.
    intros (A & B & C). replace (sqrt (fst v * fst v + snd v * snd v)) with r; [split; auto|].
    rewrite B, C. replace (r * cos t * (r * cos t) + r * sin t * (r * sin t)) with (Rsqr r * (Rsqr (sin t) + Rsqr (cos t)))
      by (unfold Rsqr; ring).
    rewrite sin2_cos2, Rmult_1_r. rewrite sqrt_Rsqr; lra.
  Qed.

  (** The summed phases of a chain of samples. *)
  Lemma calm_chain_sum horiz level zs z0 : chain (calm_step horiz level) (z0 :: zs) ->
    (zs = [] -> (other_of horiz z0 == level)%Q) ->
    Rsum (increments (phase_step f) (z0 :: zs)) =
    Th horiz level (coord_of horiz (last (z0 :: zs) z0)) - Th horiz level (coord_of horiz z0).
  Proof.
    intros HC H0. destruct zs as [|z1 zs]; [cbn; unfold Rsum; cbn; ring|].
    apply (chain_exact f (fun z => Th horiz level (coord_of horiz z))
      (fun z => sqrt (fst (f z) * fst (f z) + snd (f z) * snd (f z)))).
    - assert (G : forall l a, chain (calm_step horiz level) (a :: l) -> l <> [] -> forall z, In z (a :: l) ->
        exists r, polar (f z) r (Th horiz level (coord_of horiz z))).
      { assert (P : forall z t, (other_of horiz z == level)%Q -> (t == coord_of horiz z)%Q -> ceq z (mkpoint horiz level t)).
        { intros z t E1 E2. destruct horiz; split; cbn in *; auto; symmetry; assumption. }
        induction l as [|b l IH]; intros a C N z Hz; [congruence|].
        destruct C as [(S1 & S2 & S3 & (_ & _ & _ & S4 & _)) C].
        destruct Hz as [<-|Hz].
        - destruct (S4 (coord_of horiz a) ltac:(Lqa.lra) ltac:(Lqa.lra)) as [r R]. exists r.
          rewrite (f_proper a (mkpoint horiz level (coord_of horiz a))); [exact R|]. apply P; [exact S1|reflexivity].
        - destruct l as [|c l].
          + destruct Hz as [<-|[]]. destruct (S4 (coord_of horiz b) ltac:(Lqa.lra) ltac:(Lqa.lra)) as [r R]. exists r.
            rewrite (f_proper b (mkpoint horiz level (coord_of horiz b))); [exact R|]. apply P; [exact S2|reflexivity].
          + apply (IH b C); [discriminate|exact Hz]. }
      intros z Hz. destruct (G _ _ HC ltac:(discriminate) z Hz) as [r R]. exact (radius_unique _ _ _ R).
    - revert HC. generalize (z0 :: z1 :: zs). clear - eta_small. intro l.
      induction l as [|a l IH]; intro C; [exact I|]. destruct l as [|b l]; [exact I|].
      destruct C as [(S1 & S2 & S3 & (_ & _ & _ & _ & S4)) C]. split; [|apply IH, C].
      eapply Rle_lt_trans; [apply S4; Lqa.lra|exact eta_small].
  Qed.

  Variables (delta : R) (mp : Q) (n : nat) (prec : Z * Z) (fuel : nat).
  Hypothesis delta_pos : 0 < delta.
  Hypothesis n_big : (2 <= n)%nat.
  Hypothesis fuel_big : (100 * n + 3 <= fuel)%nat.

  Lemma steps_count : (0 < inject_Z (Z.of_nat (n - 1)))%Q.
  Proof. change 0%Q with (inject_Z 0). rewrite <- Zlt_Qlt. clear - n_big. lia. Qed.

  Lemma chunk t1 t2 : (t1 < t2)%Q -> (0 < (t2 - t1) / inject_Z (Z.of_nat (n - 1)))%Q.
  Proof. intro H. apply Qlt_shift_div_l; [apply steps_count|]. Lqa.lra. Qed.

  Lemma fine_generates horiz level t1 t2 : fine n horiz level t1 t2 ->
    exists mid, let zs := mkpoint horiz level t1 :: mid ++ [mkpoint horiz level t2] in
      gen_phi f delta mp n prec fuel 0 (mkpoint horiz level t1) (mkpoint horiz level t2) =
        Gen zs (increments (phase_step f) zs) [] /\
    chain (calm_step horiz level) zs /\
    chain (fun z z' => (coord_of horiz z' - coord_of horiz z <= (t2 - t1) / inject_Z (Z.of_nat (n - 1)))%Q) zs.
  Proof.
    intros [Ht HF].
    set (h := ((t2 - t1) / inject_Z (Z.of_nat (n - 1)))%Q) in *.
    assert (Hh : (0 < h)%Q) by (apply chunk, Ht).
    set (I := fun z => (other_of horiz z == level)%Q /\ (t1 <= coord_of horiz z)%Q /\ (coord_of horiz z <= t2)%Q).
    assert (I_clean : forall z, I z -> vanishes f z = false).
    { intros z (Z1 & Z2 & Z3). apply vanishes_false.
      destruct (HF (coord_of horiz z) (coord_of horiz z) Z2 ltac:(Lqa.lra) Z3 ltac:(Lqa.lra)) as (_ & _ & _ & C4 & _).
      destruct (C4 (coord_of horiz z) ltac:(Lqa.lra) ltac:(Lqa.lra)) as [r R].
      rewrite (f_proper z (mkpoint horiz level (coord_of horiz z))).
      - exact (polar_nonzero _ _ _ R).
      - destruct horiz; split; cbn in *; auto; reflexivity. }
    assert (I_lin : forall a b m z, I a -> I b -> In z (linspaceC a b m) -> I z).
    { intros a b m z Ia Ib Hz. destruct m as [|[|m]]; [contradiction|destruct Hz as [<-|[]]; exact Ia|].
      cbn [linspaceC] in Hz. destruct Hz as [<-|Hz]; [exact Ia|].
      apply in_app_or in Hz as [Hz|[<-|[]]]; [|exact Ib].
      apply in_map_iff in Hz as (i & <- & Hi). apply in_seq in Hi.
      assert (T : exists t, (0 <= t)%Q /\ (t <= 1)%Q /\
        linpoint a b (S m) i = (re a + t * (re b - re a), im a + t * (im b - im a))%Q).
      { exists (inject_Z (Z.of_nat i) / inject_Z (Z.of_nat (S m)))%Q.
        assert (0 < inject_Z (Z.of_nat (S m)))%Q by apply steps_pos.
        split; [|split; [|reflexivity]].
        - apply Qle_shift_div_l; [assumption|]. rewrite Qmult_0_l. change 0%Q with (inject_Z 0). rewrite <- Zle_Qle. lia.
        - apply Qle_shift_div_r; [assumption|]. rewrite Qmult_1_l. rewrite <- Zle_Qle. lia. }
      destruct T as (t & T0 & T1 & ->). destruct Ia as (A1 & A2 & A3), Ib as (B1 & B2 & B3).
      unfold I. destruct horiz; cbn [other_of coord_of re im fst snd] in *.
      - split; [rewrite A1, B1; ring|]. split; Lqa.nra.
      - split; [rewrite A1, B1; ring|]. split; Lqa.nra. }
    assert (Ia : I (mkpoint horiz level t1)) by (unfold I; destruct horiz; cbn; repeat split; try reflexivity; Lqa.lra).
    assert (Ib : I (mkpoint horiz level t2)) by (unfold I; destruct horiz; cbn; repeat split; try reflexivity; Lqa.lra).
    destruct (clean_genPhi 0 (vanishes f) (phase_step f) (at_least delta) (refinement delta) (nearer mp) n prec
      (refinement_large delta delta_pos) I I_lin I_clean fuel _ _ ltac:(lia) fuel_big Ia Ib) as (zs & phis & G).
    destruct (gen_phi_on_line f delta mp n prec delta_pos horiz level t1 t2 fuel zs phis n_big Ht G)
      as (-> & (mid & ->) & C & _).
    exists mid. cbn zeta. split; [exact G|]. fold h in C.
    assert (RNG : forall z, In z (mkpoint horiz level t1 :: mid ++ [mkpoint horiz level t2]) ->
      (t1 <= coord_of horiz z)%Q /\ (coord_of horiz z <= t2)%Q).
    { assert (Ca : coord_of horiz (mkpoint horiz level t1) = t1) by (destruct horiz; reflexivity).
      assert (Cb : coord_of horiz (mkpoint horiz level t2) = t2) by (destruct horiz; reflexivity).
      intros z HI. split.
      - destruct HI as [<-|HI]; [rewrite Ca; Lqa.lra|].
        pose proof (chain_mono _ _ _ _ _ _ C HI) as M. rewrite Ca in M. Lqa.lra.
      - rewrite app_comm_cons in HI. apply in_app_or in HI as [HI|[<-|[]]].
        + pose proof (chain_snoc_mono _ _ _ _ _ _ _ C HI) as M. rewrite Cb in M. Lqa.lra.
        + rewrite Cb. Lqa.lra. }
    revert C RNG. generalize (mkpoint horiz level t1 :: mid ++ [mkpoint horiz level t2]). intro l.
    induction l as [|a l IH]; intros C RNG; [split; exact Logic.I|]. destruct l as [|b l]; [split; exact Logic.I|].
    destruct C as [(S1 & S2 & S3 & S4) C].
    destruct (IH C (fun z Hz => RNG z (or_intror Hz))) as [J1 J2].
    split; (split; [|assumption]).
    - split; [exact S1|]. split; [exact S2|]. split; [Lqa.lra|].
      apply HF; [apply RNG; left; reflexivity|Lqa.lra|apply RNG; right; left; reflexivity|exact S4].
    - exact S4.
  Qed.

  (** Fresh levels: the answer is the change of the argument. *)
  Lemma fine_fresh horiz level t1 t2 st : fine n horiz level t1 t2 -> level_free st horiz level ->
    exists st', sum_line f delta mp n prec fuel 0 (mkpoint horiz level t1) (mkpoint horiz level t2) st =
      (st', SumOk [] (Th horiz level t2 - Th horiz level t1)).
  Proof.
    intros HF HL. destruct (fine_generates horiz level t1 t2 HF) as (mid & G & C & _).
    assert (S : Rsum (increments (phase_step f) (mkpoint horiz level t1 :: mid ++ [mkpoint horiz level t2])) =
      Th horiz level t2 - Th horiz level t1).
    { rewrite (calm_chain_sum horiz level) by (exact C || destruct mid; discriminate).
      rewrite app_comm_cons, last_last. destruct horiz; reflexivity. }
    rewrite sum_line_as_retrieve by (apply HF).
    rewrite retrieve_miss; [|apply HF|exact HL].
    unfold gen_phi in G. rewrite G. unfold asum. unfold Rsum in S. rewrite S. eexists. reflexivity.
  Qed.
End Target.
