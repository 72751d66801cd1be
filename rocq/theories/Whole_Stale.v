(** A second search of the same finder that loses a zero, because lines are answered from
    entries of the first search that are too short. *)
From Coq Require Import Reals Qreals Qminmax.
From Verif Require Import PyBase Rounding_Model Rounding_Proofs Poly_Model Container_Model Container_Spec Finder_Model Finder_Spec
  Refine_Model Refine_Spec Refine_Proofs Zeros_Spec Zeros_Proofs Cache_Model Cache_Spec Cache_Proofs
  Sum_Model Sum_Spec Angle_Proofs Sum_Proofs Sum_Proofs2 Sum_Proofs3 Sum_Proofs4 Sum_Proofs5 Sum_Proofs6
  Arg_Spec Arg_Proofs Arg_Proofs2 Arg_Proofs3 Arg_Proofs4 Arg_Examples
  EndToEnd_Model EndToEnd_Spec EndToEnd_Examples Whole_Model Whole_Spec Whole_Entry Whole_Proofs Whole_Proofs3 Whole_Examples.
From Coq Require Import Lqa Lra.
Open Scope R_scope.

Section Stale.
  Variables (f : cplx -> cR) (zeros : list point) (L : R) (D : rect) (rho theta : cplx -> R).
  Hypothesis f_proper : forall z z', ceq z z' -> f z = f z'.
  Variable eta : R.
  Hypothesis eta_small : eta < PI.
  Notation Th := (Theta zeros theta).
  Notation fine := (fine f zeros D theta eta).
  Variables (delta : R) (mp : Q) (n : nat) (prec : Z * Z) (fuel : nat).
  Hypothesis delta_pos : 0 < delta.
  Hypothesis n_big : (3 <= n)%nat.
  Hypothesis fuel_big : (100 * n + 3 <= fuel)%nat.

  Definition full_entry (h : bool) (l a b : Q) (v : entry R) : Prop :=
    Rsum (snd v) = Th h l b - Th h l a /\ (3 <= List.length (fst v))%nat /\
    (List.length (snd v) <= List.length (fst v))%nat /\ Forall (fun z => Qle_bool (coord_of h z) b = true) (fst v).

  Lemma rising h (l : list cplx) b : chain (fun z z' => (coord_of h z < coord_of h z')%Q) (l ++ [b]) ->
    Forall (fun z => Qle_bool (coord_of h z) (coord_of h b) = true) (l ++ [b]).
  Proof.
    induction l as [|a l IH]; intro C.
    - constructor; [|constructor]. apply Qle_bool_iff, Qle_refl.
    - cbn [app] in C |- *. assert (C' : chain (fun z z' => (coord_of h z < coord_of h z')%Q) (l ++ [b])).
      { destruct (l ++ [b]); [exact I|apply C]. }
      specialize (IH C'). constructor; [|exact IH].
      destruct l as [|a' l]; cbn [app] in *; destruct C as [C _]; apply Qle_bool_iff.
      + Lqa.lra.
      + inversion IH as [|? ? H _]; subst. apply Qle_bool_iff in H. Lqa.lra.
  Qed.

  Lemma fresh_entry h l t1 t2 st : fine n h l t1 t2 -> level_free st h l ->
    exists st' v, sum_line f delta mp n prec fuel 0 (mkpoint h l t1) (mkpoint h l t2) st =
        (st', SumOk [] (Th h l t2 - Th h l t1)) /\
      full_entry h l t1 t2 v /\ cached (line_cache h st') l 0 t1 StartSide = Some v.
  Proof.
    intros HF HL.
    destruct (fine_generates f zeros D theta f_proper eta delta mp n prec fuel delta_pos ltac:(clear - n_big; lia) fuel_big h l t1 t2 HF) as (mid & G & C & SP).
    set (zs := mkpoint h l t1 :: mid ++ [mkpoint h l t2]) in *.
    assert (S : Rsum (increments (phase_step f) zs) = Th h l t2 - Th h l t1).
    { unfold zs. rewrite (calm_chain_sum f zeros D theta f_proper eta eta_small h l) by (exact C || destruct mid; discriminate).
      rewrite app_comm_cons, last_last. destruct h; reflexivity. }
    rewrite sum_line_as_retrieve by (apply HF).
    rewrite retrieve_miss; [|apply HF|exact HL].
    unfold gen_phi in G. rewrite G. unfold asum. pose proof S as S'. unfold Rsum in S'. rewrite S'.
    eexists. exists (zs, increments (phase_step f) zs). split; [reflexivity|]. split.
    - split; [exact S|]. cbn [fst snd]. split; [|split].
      + destruct mid as [|z mid]; [|unfold zs; cbn [List.length app]; rewrite app_length; cbn; clear; lia]. exfalso.
        destruct SP as [SP _]. destruct HF as [Ht _].
        assert (Ca : coord_of h (mkpoint h l t1) = t1) by (destruct h; reflexivity).
        assert (Cb : coord_of h (mkpoint h l t2) = t2) by (destruct h; reflexivity).
        rewrite Ca, Cb in SP.
        assert (N : (inject_Z 2 <= inject_Z (Z.of_nat (n - 1)))%Q) by (rewrite <- Zle_Qle; clear - n_big; lia).
        change (inject_Z 2) with 2%Q in N. set (m := inject_Z (Z.of_nat (n - 1))) in *. clearbody m.
        apply Qlt_not_le in Ht. apply Ht.
        assert (X : ((t2 - t1) * m <= t2 - t1)%Q).
        { apply (Qmult_le_r _ _ m) in SP; [|Lqa.lra]. setoid_replace ((t2 - t1) / m * m)%Q with (t2 - t1)%Q in SP by (field; Lqa.lra). exact SP. }
        destruct (Qlt_le_dec t1 t2) as [Q|Q]; [|exact Q]. Lqa.nra.
      + clear. induction zs as [|a [|b l0] IH]; cbn in *; try lia.
      + unfold zs. rewrite app_comm_cons.
        assert (Cb : coord_of h (mkpoint h l t2) = t2) by (destruct h; reflexivity).
        pose proof (rising h (mkpoint h l t1 :: mid) (mkpoint h l t2)) as X. rewrite Cb in X. apply X.
        cbn [app]. fold zs. revert C. apply chain_weaken. intros z z' (_ & _ & Z & _). exact Z.
    - replace (line_cache h _) with (storeCache l 0 t1 t2 (zs, increments (phase_step f) zs) (dset okey_eqb (l, 0%Z) [] (line_cache h st)))
        by (destruct h; reflexivity).
      rewrite cached_store by (rewrite (dget_dset okey_eqb okey_t okey_s), okey_r; discriminate).
      rewrite okey_r. unfold skey_eqb. cbn [fst snd side_eqb]. rewrite andb_false_r, Qeq_bool_refl. reflexivity.
  Qed.

  Lemma last_all {A} (p : A -> bool) a l : Forall (fun y => p y = true) (a :: l) -> last_index p (a :: l) = Some (List.length l).
  Proof.
    revert a. induction l as [|b l IH]; intros a H; inversion H as [|? ? H1 H2]; subst.
    - cbn. rewrite H1. reflexivity.
    - specialize (IH b H2). cbn [last_index] in *. rewrite IH. reflexivity.
  Qed.

  Lemma stale_start h l t1 b t2 v st : (t1 < t2)%Q -> (b <= t2)%Q -> full_entry h l t1 b v ->
    cached (line_cache h st) l 0 t1 StartSide = Some v ->
    exists st', sum_line f delta mp n prec fuel 0 (mkpoint h l t1) (mkpoint h l t2) st = (st', SumOk [] (Th h l b - Th h l t1)).
  Proof.
    intros Ht Hb (F1 & F2 & F3 & F4) HC. rewrite sum_line_as_retrieve by exact Ht. unfold retrieveCached.
    assert (Qltb t1 t2 = true) as -> by (apply Qltb_true, Ht).
    assert (Qle_bool t1 t2 = true) as -> by (apply Qle_bool_iff; Lqa.lra).
    unfold cached in HC. destruct (dget okey_eqb (l, 0%Z) (line_cache h st)) as [d|]; [|discriminate].
    rewrite HC.
    assert (AL : Forall (fun z => Qle_bool (coord_of h z) t2 = true) (fst v)).
    { revert F4. apply Forall_impl. intros z Hz. apply Qle_bool_iff in Hz. apply Qle_bool_iff. Lqa.lra. }
    assert (CW : count_where (fun z => Qle_bool (coord_of h z) t2) (fst v) = List.length (fst v)).
    { unfold count_where. f_equal. clear - AL. induction AL as [|z l H _ IH]; [reflexivity|]. cbn. rewrite H, IH. reflexivity. }
    rewrite CW. assert (Nat.ltb (List.length (fst v)) 3 = false) as -> by (apply Nat.ltb_ge; exact F2).
    destruct v as [[|z zs] phis]; cbn [fst snd] in *; [cbn in F2; exfalso; clear - F2; lia|].
    rewrite (last_all _ z zs AL). rewrite !firstn_all2 by (cbn in *; clear - F3; lia).
    unfold asum. unfold Rsum in F1. cbn [snd] in *. rewrite F1. eexists. reflexivity.
  Qed.
End Stale.

(** ** Four lines *)
Lemma four_lines {LS} (line : Z -> cplx -> cplx -> LS -> LS * list cplx * res cplx) debug r c st st1 st2 st3 st4 q1 q2 q3 q4 :
  (x1 r < x2 r)%Q -> (y1 r < y2 r)%Q -> (forall a b, ec_lookup 0 a b c = None) ->
  line 0%Z (x1 r, y1 r) (x2 r, y1 r) st = (st1, [], Ok (q1, 0%Q)) ->
  line 0%Z (x2 r, y1 r) (x2 r, y2 r) st1 = (st2, [], Ok (q2, 0%Q)) ->
  line 0%Z (x2 r, y2 r) (x1 r, y2 r) st2 = (st3, [], Ok (q3, 0%Q)) ->
  line 0%Z (x1 r, y2 r) (x1 r, y1 r) st3 = (st4, [], Ok (q4, 0%Q)) ->
  exists c' m, cached_moment line debug 0 r (c, st) = ((c', st4), [], Ok m) /\ (re m == q1 + q2 + q3 + q4)%Q.
Proof.
  intros Hx Hy HC L1 L2 L3 L4.
  pose proof (sides_computed line debug 0 r c st Hx Hy) as X. cbn zeta in X.
  unfold sides in X. cbn [sum_sides] in X. rewrite !HC in X. rewrite L1 in X. cbn [app] in X.
  rewrite L2 in X. rewrite L3 in X. rewrite L4 in X. cbn [app] in X.
  destruct (cached_moment line debug 0 r (c, st)) as [[[c' st'] zs] v]. cbn [fst snd] in X.
  injection X as -> -> ->. do 2 eexists. split; [reflexivity|].
  unfold cadd. cbn [re im fst snd c0]. Lqa.lra.
Qed.

Section Pair.
  Variables (f : cplx -> cR) (zeros : list point) (L : R) (rho theta : cplx -> R).
  Variables xa xb xc ya yb yc : Q.
  Hypothesis Hxab : (xa < xb)%Q.
  Hypothesis Hxbc : (xb < xc)%Q.
  Hypothesis Hyab : (ya < yb)%Q.
  Hypothesis Hybc : (yb < yc)%Q.
  Notation r1 := (mkRect xa xb ya yb).
  Notation r2 := (mkRect xa xc ya yc).
  Hypothesis f_proper : forall z z', ceq z z' -> f z = f z'.
  Hypothesis L_pos : 0 <= L.
  Hypothesis f_eq : forall z, in_rect r2 z -> 0 < rho z /\
       f z = cmulR (zero_product zeros z) (rho z * cos (theta z), rho z * sin (theta z)).
  Hypothesis theta_lip : forall z z', in_rect r2 z -> in_rect r2 z' ->
       Rabs (theta z' - theta z) <= L * (Rabs (Q2R (re z' - re z)) + Rabs (Q2R (im z' - im z))).
  Variable eta : R.
  Hypothesis eta_small : eta < PI.
  Notation Th := (Theta zeros theta).
  Variables (turns : R -> Q) (eps delta : R) (mp : Q) (n : nat) (prec : Z * Z) (fuel : nat) (debug : bool).
  Hypothesis delta_pos : 0 < delta.
  Hypothesis n_big : (3 <= n)%nat.
  Hypothesis fuel_big : (100 * n + 3 <= fuel)%nat.
  Hypothesis turns_ok : forall p, Rabs (Q2R (turns p) - p / (2 * PI)) <= eps.
  Hypothesis sampled1 : well_sampled n eta L zeros r1.
  Hypothesis sampled2 : well_sampled n eta L zeros r2.
  Notation line := (turn_line turns f delta mp n prec fuel).
  Notation sum := (sum_line f delta mp n prec fuel 0).

  Lemma frame_get a b st st' o h l : sum a b st = (st', o) -> ~ on_level a b h l ->
    dget okey_eqb (l, 0%Z) (line_cache h st') = dget okey_eqb (l, 0%Z) (line_cache h st).
  Proof. intros H N. rewrite <- (line_frame' f delta mp n prec fuel 0 a b st h l N), H. reflexivity. Qed.

  Lemma as_turns a b st st' p : sum a b st = (st', SumOk [] p) -> line 0%Z a b st = (st', [], Ok (turns p, 0%Q)).
  Proof. intro H. unfold turn_line. rewrite H. reflexivity. Qed.

  Lemma four_turns p1 p2 p3 p4 t : p1 + p2 + p3 + p4 = t ->
    Rabs (Q2R (turns p1 + turns p2 + turns p3 + turns p4) - t / (2 * PI)) <= 4 * eps.
  Proof.
    intros <-. rewrite !Q2R_plus. pose proof PI_RGT_0 as P.
    pose proof (turns_ok p1) as T1. pose proof (turns_ok p2) as T2. pose proof (turns_ok p3) as T3. pose proof (turns_ok p4) as T4.
    replace ((p1 + p2 + p3 + p4) / (2 * PI)) with (p1 / (2 * PI) + p2 / (2 * PI) + p3 / (2 * PI) + p4 / (2 * PI)) by (field; lra).
    assert (B : forall u, Rabs u <= eps -> - eps <= u <= eps) by (intros u Hu; unfold Rabs in Hu; destruct (Rcase_abs u); lra).
    apply B in T1, T2, T3, T4. apply Rabs_le. lra.
  Qed.

  (** The answers for the inner rectangle, by a new estimator, and then for the outer one. *)
  Lemma stale_pair :
    exists c1 st' m1, cached_moment line debug 0 r1 new_estimator = ((c1, st'), [], Ok m1) /\
      Rabs (Q2R (re m1) - INR (count zeros r1)) <= 4 * eps /\
      forall c, (forall a b, ec_lookup 0 a b c = None) ->
      exists s2 m2, cached_moment line debug 0 r2 (c, st') = (s2, [], Ok m2) /\
        Rabs (Q2R (re m2) - (INR (count zeros r2) -
          ((Th true ya xc - Th true ya xb) - (Th false xa yc - Th false xa yb)) / (2 * PI))) <= 4 * eps.
  Proof.
    pose proof PI_RGT_0 as P.
    assert (W1 : wide r1) by (split; assumption). assert (W2 : wide r2) by (split; cbn; Lqa.lra).
    assert (I1 : inside r2 r1) by (unfold inside; cbn; repeat split; Lqa.lra).
    assert (I2 : inside r2 r2) by (unfold inside; cbn; repeat split; Lqa.lra).
    assert (N2 : (2 <= n)%nat) by (clear - n_big; lia).
    pose proof (sampled_fine f zeros L r2 rho theta L_pos f_eq theta_lip eta n r1 N2 I1 W1 sampled1) as F1.
    pose proof (sampled_fine f zeros L r2 rho theta L_pos f_eq theta_lip eta n r2 N2 I2 W2 sampled2) as F2.
    pose proof (fun h l t1 t2 st HF => fresh_entry f zeros r2 theta f_proper eta eta_small delta mp n prec fuel
      delta_pos n_big fuel_big h l t1 t2 st HF) as G.
    (* the first search *)
    assert (FE : forall h l, level_free fresh_sum h l) by (intros [] l; reflexivity).
    destruct (G true ya xa xb fresh_sum (F1 true ya xa xb ltac:(cbn; tauto)) (FE _ _)) as (s1 & v1 & A1 & B1 & C1).
    destruct (G false xb ya yb s1 (F1 false xb ya yb ltac:(cbn; tauto))) as (s2 & v2 & A2 & B2 & C2).
    { unfold level_free. fold (line_cache false s1). rewrite (frame_get _ _ _ _ _ false xb A1); [reflexivity|].
      cbn. intros [X _]. Lqa.lra. }
    destruct (G true yb xa xb s2 (F1 true yb xa xb ltac:(cbn; tauto))) as (s3 & v3 & A3 & B3 & C3).
    { unfold level_free. fold (line_cache true s2). rewrite (frame_get _ _ _ _ _ true yb A2), (frame_get _ _ _ _ _ true yb A1);
        [reflexivity|cbn; intros [X Y]; Lqa.lra|cbn; intros [X Y]; Lqa.lra]. }
    destruct (G false xa ya yb s3 (F1 false xa ya yb ltac:(cbn; tauto))) as (s4 & v4 & A4 & B4 & C4).
    { unfold level_free. fold (line_cache false s3).
      rewrite (frame_get _ _ _ _ _ false xa A3), (frame_get _ _ _ _ _ false xa A2), (frame_get _ _ _ _ _ false xa A1);
        [reflexivity|cbn; intros [X Y]; Lqa.lra|cbn; intros [X Y]; Lqa.lra|cbn; intros [X Y]; Lqa.lra]. }
    cbn [mkpoint] in A1, A2, A3, A4.
    assert (A3' : sum (xb, yb) (xa, yb) s2 = (s3, SumOk [] (- (Th true yb xb - Th true yb xa))))
      by (rewrite sum_line_swap, A3 by Lqa.lra; reflexivity).
    assert (A4' : sum (xa, yb) (xa, ya) s3 = (s4, SumOk [] (- (Th false xa yb - Th false xa ya))))
      by (rewrite sum_line_swap_vertical, A4 by Lqa.lra; reflexivity).
    destruct (four_lines line debug r1 new_cache fresh_sum s1 s2 s3 s4 _ _ _ _ Hxab Hyab (fun _ _ => eq_refl)
      (as_turns _ _ _ _ _ A1) (as_turns _ _ _ _ _ A2) (as_turns _ _ _ _ _ A3') (as_turns _ _ _ _ _ A4')) as (c1 & m1 & E1 & M1).
    exists c1, s4, m1. split; [exact E1|]. split.
    { rewrite (Qeq_eqR _ _ M1).
      pose proof (winding_side zeros L theta eta n prec r1 W1 sampled1) as WS. cbn [x1 x2 y1 y2] in WS.
      replace (INR (count zeros r1)) with (2 * PI * INR (count zeros r1) / (2 * PI)) by (field; lra).
      apply four_turns. rewrite <- WS. ring. }
    intros c HC.
    (* the second search *)
    assert (D1 : cached (line_cache true s4) ya 0 xa StartSide = Some v1).
    { rewrite <- C1. unfold cached.
      rewrite (frame_get _ _ _ _ _ true ya A4), (frame_get _ _ _ _ _ true ya A3), (frame_get _ _ _ _ _ true ya A2);
        [reflexivity|cbn; intros [X Y]; Lqa.lra|cbn; intros [X Y]; Lqa.lra|cbn; intros [X Y]; Lqa.lra]. }
    destruct (stale_start f zeros theta delta mp n prec fuel true ya xa xb xc v1 s4
      ltac:(Lqa.lra) ltac:(Lqa.lra) B1 D1) as (u1 & U1).
    assert (FR : forall l, ~ (l == xa)%Q -> ~ (l == xb)%Q -> dget okey_eqb (l, 0%Z) (line_cache false s4) = None).
    { intros l K1 K2. rewrite (frame_get _ _ _ _ _ false l A4), (frame_get _ _ _ _ _ false l A3), (frame_get _ _ _ _ _ false l A2),
        (frame_get _ _ _ _ _ false l A1); [reflexivity|cbn; intros [X Y]; Lqa.lra|cbn; intros [X Y]; Lqa.lra|cbn; intros [X Y]; Lqa.lra|cbn; intros [X Y]; Lqa.lra]. }
    assert (FT : forall l, ~ (l == ya)%Q -> ~ (l == yb)%Q -> dget okey_eqb (l, 0%Z) (line_cache true s4) = None).
    { intros l K1 K2. rewrite (frame_get _ _ _ _ _ true l A4), (frame_get _ _ _ _ _ true l A3), (frame_get _ _ _ _ _ true l A2),
        (frame_get _ _ _ _ _ true l A1); [reflexivity|cbn; intros [X Y]; Lqa.lra|cbn; intros [X Y]; Lqa.lra|cbn; intros [X Y]; Lqa.lra|cbn; intros [X Y]; Lqa.lra]. }
    destruct (G false xc ya yc u1 (F2 false xc ya yc ltac:(cbn; tauto))) as (u2 & w2 & U2 & _).
    { unfold level_free. fold (line_cache false u1). rewrite (frame_get _ _ _ _ _ false xc U1); [apply FR; Lqa.lra|].
      cbn. intros [X _]. Lqa.lra. }
    destruct (G true yc xa xc u2 (F2 true yc xa xc ltac:(cbn; tauto))) as (u3 & w3 & U3 & _).
    { unfold level_free. fold (line_cache true u2). rewrite (frame_get _ _ _ _ _ true yc U2), (frame_get _ _ _ _ _ true yc U1);
        [apply FT; Lqa.lra|cbn; intros [X Y]; Lqa.lra|cbn; intros [X Y]; Lqa.lra]. }
    assert (D4 : cached (line_cache false u3) xa 0 ya StartSide = Some v4).
    { rewrite <- C4. unfold cached.
      rewrite (frame_get _ _ _ _ _ false xa U3), (frame_get _ _ _ _ _ false xa U2), (frame_get _ _ _ _ _ false xa U1);
        [reflexivity|cbn; intros [X Y]; Lqa.lra|cbn; intros [X Y]; Lqa.lra|cbn; intros [X Y]; Lqa.lra]. }
    destruct (stale_start f zeros theta delta mp n prec fuel false xa ya yb yc v4 u3
      ltac:(Lqa.lra) ltac:(Lqa.lra) B4 D4) as (u4 & U4).
    cbn [mkpoint] in U1, U2, U3, U4.
    assert (U3' : sum (xc, yc) (xa, yc) u2 = (u3, SumOk [] (- (Th true yc xc - Th true yc xa))))
      by (rewrite sum_line_swap, U3 by Lqa.lra; reflexivity).
    assert (U4' : sum (xa, yc) (xa, ya) u3 = (u4, SumOk [] (- (Th false xa yb - Th false xa ya))))
      by (rewrite sum_line_swap_vertical, U4 by Lqa.lra; reflexivity).
    destruct (four_lines line debug r2 c s4 u1 u2 u3 u4 _ _ _ _ (proj1 W2) (proj2 W2) HC
      (as_turns _ _ _ _ _ U1) (as_turns _ _ _ _ _ U2) (as_turns _ _ _ _ _ U3') (as_turns _ _ _ _ _ U4')) as (c2 & m2 & E2 & M2).
    exists (c2, u4), m2. split; [exact E2|].
    rewrite (Qeq_eqR _ _ M2).
    pose proof (winding_side zeros L theta eta n prec r2 W2 sampled2) as WS. cbn [x1 x2 y1 y2] in WS.
    match goal with |- Rabs (_ - ?t) <= _ => replace t with (2 * PI * t / (2 * PI)) by (field; lra) end.
    apply four_turns.
    replace (2 * PI * (INR (count zeros r2) - (Th true ya xc - Th true ya xb - (Th false xa yc - Th false xa yb)) / (2 * PI)))
      with (2 * PI * INR (count zeros r2) - (Th true ya xc - Th true ya xb - (Th false xa yc - Th false xa yb))) by (field; lra).
    rewrite <- WS. ring.
  Qed.
End Pair.
