(** The job above a job with a cut upper side: the first estimate misses the angle under which
    the right half of the common side is seen. *)
From Coq Require Import Reals Qreals Qminmax.
From Verif Require Import PyBase Rounding_Model Poly_Model Container_Model Finder_Model Finder_Spec
  Refine_Model Refine_Spec Refine_Proofs Zeros_Spec Zeros_Proofs Cache_Model Cache_Spec Cache_Proofs
  Sum_Model Sum_Spec Angle_Proofs Sum_Proofs Sum_Proofs2 Sum_Proofs3 Sum_Proofs4 Sum_Proofs5 Sum_Proofs6
  Arg_Spec Arg_Proofs Arg_Proofs2 Arg_Proofs3 Arg_Proofs4
  EndToEnd_Model EndToEnd_Spec EndToEnd_Proofs Whole_Model Whole_Grid Whole_Entry Whole_Inv Whole_Search Whole_Spec Whole_Proofs
  Whole_Proofs3 Whole_Stale Chunk_Model Chunk_Spec Chunk_Frame Chunk_Cut Chunk_Cut2.
From Coq Require Import Lqa Lra.
Open Scope R_scope.

(** A line that starts with a stored shorter one is answered with that one. *)
Lemma stale_answer f delta mp n prec fuel h l t1 b t2 (v : entry R) st : (t1 < t2)%Q -> (b <= t2)%Q ->
  (3 <= List.length (fst v))%nat -> (List.length (snd v) <= List.length (fst v))%nat ->
  Forall (fun z => Qle_bool (coord_of h z) b = true) (fst v) ->
  cached (line_cache h st) l 0 t1 StartSide = Some v ->
  exists st', sum_line f delta mp n prec fuel 0 (mkpoint h l t1) (mkpoint h l t2) st = (st', SumOk [] (Rsum (snd v))).
Proof.
  intros Ht Hb F2 F3 F4 HC. rewrite sum_line_as_retrieve by exact Ht. unfold retrieveCached.
  assert (Qltb t1 t2 = true) as -> by (apply Qltb_true, Ht).
  assert (Qle_bool t1 t2 = true) as -> by (apply Qle_bool_iff; Lqa.lra).
  unfold cached in HC. destruct (dget okey_eqb (l, 0%Z) (line_cache h st)) as [d|]; [|discriminate].
  rewrite HC.
  assert (AL : Forall (fun z => Qle_bool (coord_of h z) t2 = true) (fst v)).
  { revert F4. apply Forall_impl. intros z Hz. apply Qle_bool_iff in Hz. apply Qle_bool_iff. Lqa.lra. }
  assert (CW : count_where (fun z => Qle_bool (coord_of h z) t2) (fst v) = List.length (fst v)).
  { unfold count_where. f_equal. clear - AL. induction AL as [|z l H _ IH]; [reflexivity|]. cbn. rewrite H, IH. reflexivity. }
  rewrite CW. assert (Nat.ltb (List.length (fst v)) 3 = false) as -> by (apply Nat.ltb_ge; exact F2).
  destruct v as [[|z zs] phis]; cbn [fst snd] in *; [cbn in F2; exfalso; clear - F2; lia|].
  rewrite (last_all _ z zs AL). rewrite !firstn_all2 by (cbn in *; clear - F3; lia).
  unfold asum, Rsum. eexists. reflexivity.
Qed.

Section Above.
  Variables (f : cplx -> cR) (zeros : list point) (L eta : R) (rho theta : cplx -> R).
  Hypothesis f_proper : forall z z', ceq z z' -> f z = f z'.
  Hypothesis L_pos : 0 <= L.
  Hypothesis eta_small : eta < PI.
  Variables (turns : R -> Q) (eps delta : R) (mp : Q) (n : nat) (eprec : Z * Z) (fuel : nat) (debug : bool).
  Hypothesis delta_pos : 0 < delta.
  Hypothesis n_big : (3 <= n)%nat.
  Hypothesis fuel_big : (100 * n + 3 <= fuel)%nat.
  Hypothesis turns_ok : forall p, Rabs (Q2R (turns p) - p / (2 * PI)) <= eps.
  Notation line := (turn_line turns f delta mp n eprec fuel).
  Notation sum := (sum_line f delta mp n eprec fuel 0).
  Notation Th := (Theta zeros theta).
  Variables xl xu : rctx.
  Notation R0 := (rect_of xl).
  Notation R1 := (rect_of xu).
  Notation xb := ((x1 R0 + x2 R0) / 2)%Q.
  Hypothesis same_x1 : x1 R1 = x1 R0.
  Hypothesis same_x2 : x2 R1 = x2 R0.
  Hypothesis on_top : y1 R1 = y2 R0.
  Hypothesis wide1 : (x1 R1 < x2 R1 /\ y1 R1 < y2 R1)%Q.
  Hypothesis f_eq : forall z, in_rect R1 z -> 0 < rho z /\
       f z = cmulR (zero_product zeros z) (rho z * cos (theta z), rho z * sin (theta z)).
  Hypothesis theta_lip : forall z z', in_rect R1 z -> in_rect R1 z' ->
       Rabs (theta z' - theta z) <= L * (Rabs (Q2R (re z' - re z)) + Rabs (Q2R (im z' - im z))).
  Hypothesis sampled1 : well_sampled n eta L zeros R1.

  Lemma new_line h l t1 t2 st : In (h, l, t1, t2) (side_list R1) ->
    cached (line_cache h st) l 0 t1 StartSide = None -> cached (line_cache h st) l 0 t2 EndSide = None ->
    exists st' p, sum (mkpoint h l t1) (mkpoint h l t2) st = (st', SumOk [] p) /\ Rabs (p - (Th h l t2 - Th h l t1)) <= 2 * eta.
  Proof.
    intros HS H1 H2.
    assert (RP : proper_cell xu R1) by (split; [apply wide1|]; split; [apply wide1|]; repeat split; apply Qle_refl).
    assert (N2 : (2 <= n)%nat) by (clear - n_big; lia).
    assert (I1 : inside R1 R1) by (repeat split; apply Qle_refl).
    pose proof (sampled_fine f zeros L R1 rho theta L_pos f_eq theta_lip eta n R1 N2 I1 wide1 sampled1 h l t1 t2 HS) as HF.
    assert (HT : (if h then t1 == x1 R1 /\ t2 == x2 R1 else t1 == y1 R1 /\ t2 == y2 R1)%Q).
    { clear - HS. cbn [side_list In] in HS. destruct HS as [H|[H|[H|[H|[]]]]]; injection H as <- <- <- <-; split; reflexivity. }
    destruct (request_line f zeros R1 theta f_proper eta eta_small (gap R1 n h) delta mp n eprec fuel
          delta_pos N2 fuel_big h l t1 t2 st HF (gap_ok n n_big xu h R1 t1 t2 RP HT)) as [(st' & ph & v & Q1 & Q2 & _)|(A & B & _)].
    - intros v Hv. congruence.
    - intros v Hv. congruence.
    - exists st', ph. auto.
    - exfalso. subst h. destruct HT as [HT1 HT2]. apply (tall n n_big xu wide1). rewrite <- HT1, <- HT2. exact B.
  Qed.

  Lemma four_rough p1 p2 p3 p4 t : Rabs (p1 + p2 + p3 + p4 - t) <= 8 * eta ->
    Rabs (Q2R (turns p1 + turns p2 + turns p3 + turns p4) - t / (2 * PI)) <= 4 * eps + 4 * eta / PI.
  Proof.
    intros H. rewrite !Q2R_plus. pose proof PI_RGT_0 as P.
    pose proof (turns_ok p1) as T1. pose proof (turns_ok p2) as T2. pose proof (turns_ok p3) as T3. pose proof (turns_ok p4) as T4.
    assert (B : forall u e, Rabs u <= e -> - e <= u <= e) by (intros u e Hu; unfold Rabs in Hu; destruct (Rcase_abs u); lra).
    apply B in T1, T2, T3, T4, H.
    assert (X : - (4 * eta / PI) <= p1 / (2 * PI) + p2 / (2 * PI) + p3 / (2 * PI) + p4 / (2 * PI) - t / (2 * PI) <= 4 * eta / PI).
    { replace (p1 / (2 * PI) + p2 / (2 * PI) + p3 / (2 * PI) + p4 / (2 * PI) - t / (2 * PI)) with ((p1 + p2 + p3 + p4 - t) / (2 * PI)) by (field; lra).
      replace (4 * eta / PI) with ((8 * eta) / (2 * PI)) by (field; lra).
      assert (I : 0 < / (2 * PI)) by (apply Rinv_0_lt_compat; lra). unfold Rdiv. nra. }
    apply Rabs_le. lra.
  Qed.

  Lemma above_moment c st : (forall a b, ec_lookup 0 a b c = None) -> cut f zeros eta theta n xl st ->
    exists s2 m, cached_moment line debug 0 R1 (c, st) = (s2, [], Ok m) /\
      Rabs (Q2R (re m) - (INR (count zeros R1) - (Th true (y1 R1) (x2 R1) - Th true (y1 R1) xb) / (2 * PI))) <= 4 * eps + 4 * eta / PI.
  Proof.
    intros HC [[VH1 VH2] (v & S1 & S2 & S3)]. pose proof PI_RGT_0 as P. destruct wide1 as [W1 W2].
    destruct (mid_between (x1 R0) (x2 R0)) as [M1 M2]; [rewrite <- same_x1, <- same_x2; exact W1|].
    assert (VS := valid_sum f zeros R0 theta f_proper eta eta_small _ _ _ _ _ _ S2).
    assert (FULL : (List.length (snd v) <= List.length (fst v))%nat /\ Forall (fun z => Qle_bool (coord_of true z) xb = true) (fst v)).
    { destruct S2 as (pre & zl & ext & E1 & E2 & C & _ & HL & CA & HB & HE). split.
      - rewrite E1, E2, app_length. cbn [List.length].
        assert (IL : forall l, (List.length (increments (phase_step f) l) <= List.length l - 1)%nat).
        { clear. induction l as [|a [|b l] IH]; cbn [increments List.length] in *; lia. }
        specialize (IL (pre ++ zl :: ext)). rewrite app_length in IL. cbn [List.length] in IL.
        destruct HE as [(-> & _)|(z' & -> & _)]; cbn [List.length] in IL; clear - IL; lia.
      - rewrite E1.
        assert (CC : chain (fun z z' => (coord_of true z < coord_of true z')%Q) (pre ++ [zl])).
        { assert (C' : chain (calm_step f zeros R0 theta eta true (y2 R0)) (pre ++ [zl])).
          { apply (chain_prefix _ (pre ++ [zl]) ext). rewrite <- app_assoc. exact C. }
          revert C'. apply chain_weaken. intros z z' (_ & _ & Z & _). exact Z. }
        apply rising in CC. revert CC. apply Forall_impl. intros z Hz. apply Qle_bool_iff in Hz. apply Qle_bool_iff. Lqa.lra. }
    destruct FULL as [FL FF].
    change horizontal with (line_cache true) in S1.
    destruct (stale_answer f delta mp n eprec fuel true (y2 R0) (x1 R0) xb (x2 R0) v st ltac:(Lqa.lra) ltac:(Lqa.lra) S3 FL FF S1) as (u1 & U1).
    rewrite <- same_x1, <- same_x2, <- on_top in U1. cbn [mkpoint] in U1.
    rewrite <- on_top in VS. rewrite <- same_x1 in VS at 2. rewrite <- on_top in VH1, VH2.
    assert (N1 : forall l, cached (line_cache false st) l 0 (y1 R1) StartSide = None).
    { intro l. destruct (cached (line_cache false st) l 0 (y1 R1) StartSide) eqn:X; [|reflexivity]. exfalso. apply VH1 in X. Lqa.lra. }
    assert (N2 : forall l, cached (line_cache false st) l 0 (y2 R1) EndSide = None).
    { intro l. destruct (cached (line_cache false st) l 0 (y2 R1) EndSide) eqn:X; [|reflexivity]. exfalso. apply VH1 in X. Lqa.lra. }
    assert (N3 : forall t s, cached (line_cache true st) (y2 R1) 0 t s = None).
    { intros t s. destruct (cached (line_cache true st) (y2 R1) 0 t s) eqn:X; [|reflexivity]. exfalso. apply VH2 in X. Lqa.lra. }
    assert (V1 : u1 = fst (sum (x1 R1, y1 R1) (x2 R1, y1 R1) st)) by (rewrite U1; reflexivity).
    assert (OT : forall h l t s, ~ on_level (x1 R1, y1 R1) (x2 R1, y1 R1) h l -> cached (line_cache h u1) l 0 t s = cached (line_cache h st) l 0 t s).
    { intros h l t s N. rewrite V1. apply line_other. intros [X _]. exact (N X). }
    assert (K1 : forall l, ~ on_level (x1 R1, y1 R1) (x2 R1, y1 R1) false l) by (intro l; cbn [on_level re im fst snd]; intros [X _]; clear - X W1; Lqa.lra).
    assert (K2 : ~ on_level (x1 R1, y1 R1) (x2 R1, y1 R1) true (y2 R1)) by (cbn [on_level re im fst snd]; intros [_ X]; clear - X W2; Lqa.lra).
    destruct (new_line false (x2 R1) (y1 R1) (y2 R1) u1) as (u2 & p2 & U2 & B2);
      [cbn; tauto|rewrite OT by apply K1; apply N1|rewrite OT by apply K1; apply N2|].
    cbn [mkpoint] in U2.
    assert (V2 : u2 = fst (sum (x2 R1, y1 R1) (x2 R1, y2 R1) u1)) by (rewrite U2; reflexivity).
    assert (OT2 : forall h l t s, ~ on_level (x2 R1, y1 R1) (x2 R1, y2 R1) h l -> cached (line_cache h u2) l 0 t s = cached (line_cache h u1) l 0 t s).
    { intros h l t s N. rewrite V2. apply line_other. intros [X _]. exact (N X). }
    assert (K3 : forall l, ~ on_level (x2 R1, y1 R1) (x2 R1, y2 R1) true l) by (intro l; cbn [on_level re im fst snd]; intros [X _]; clear - X W2; Lqa.lra).
    assert (K4 : ~ on_level (x2 R1, y1 R1) (x2 R1, y2 R1) false (x1 R1)) by (cbn [on_level re im fst snd]; intros [_ X]; clear - X W1; Lqa.lra).
    destruct (new_line true (y2 R1) (x1 R1) (x2 R1) u2) as (u3 & p3 & U3 & B3);
      [cbn; tauto|rewrite OT2 by apply K3; rewrite OT by exact K2; apply N3|rewrite OT2 by apply K3; rewrite OT by exact K2; apply N3|].
    cbn [mkpoint] in U3.
    assert (V3 : u3 = fst (sum (x1 R1, y2 R1) (x2 R1, y2 R1) u2)) by (rewrite U3; reflexivity).
    assert (OT3 : forall l t s, cached (line_cache false u3) l 0 t s = cached (line_cache false u2) l 0 t s).
    { intros l t s. rewrite V3. apply line_other. cbn [on_level re im fst snd]. intros [[X _] _]. clear - X W1. Lqa.lra. }
    destruct (new_line false (x1 R1) (y1 R1) (y2 R1) u3) as (u4 & p4 & U4 & B4);
      [cbn; tauto|rewrite OT3, OT2 by exact K4; rewrite OT by apply K1; apply N1|rewrite OT3, OT2 by exact K4; rewrite OT by apply K1; apply N2|].
    cbn [mkpoint] in U4.
    assert (U3' : sum (x2 R1, y2 R1) (x1 R1, y2 R1) u2 = (u3, SumOk [] (- p3))) by (rewrite sum_line_swap, U3 by Lqa.lra; reflexivity).
    assert (U4' : sum (x1 R1, y2 R1) (x1 R1, y1 R1) u3 = (u4, SumOk [] (- p4))) by (rewrite sum_line_swap_vertical, U4 by Lqa.lra; reflexivity).
    destruct (four_lines line debug R1 c st u1 u2 u3 u4 (turns (Rsum (snd v))) (turns p2) (turns (- p3)) (turns (- p4)) W1 W2 HC) as (c2 & m & E2 & MM);
      try (unfold turn_line; rewrite ?U1, ?U2, ?U3', ?U4'; reflexivity).
    exists (c2, u4), m. split; [exact E2|]. rewrite (Qeq_eqR _ _ MM).
    pose proof (winding_side zeros L theta eta n eprec R1 wide1 sampled1) as WS.
    match goal with |- Rabs (_ - ?t) <= _ => replace t with (2 * PI * t / (2 * PI)) by (field; lra) end.
    apply four_rough.
    match goal with |- context [2 * PI * (INR ?k - ?d / (2 * PI))] => replace (2 * PI * (INR k - d / (2 * PI))) with (2 * PI * INR k - d) by (field; lra) end.
    rewrite <- WS.
    assert (B : forall u e, Rabs u <= e -> - e <= u <= e) by (intros u e Hu; unfold Rabs in Hu; destruct (Rcase_abs u); lra).
    apply B in VS, B2, B3, B4. apply Rabs_le. lra.
  Qed.
End Above.
