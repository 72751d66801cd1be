(** * Invariant of the two caches of the summation estimator during one search *)
From Coq Require Import Reals Qreals.
From Verif Require Import PyBase Rounding_Model Poly_Model Refine_Model Refine_Spec Zeros_Spec Cache_Model Cache_Spec Cache_Proofs
  Sum_Model Sum_Spec Angle_Proofs Sum_Proofs Sum_Proofs2 Sum_Proofs3 Sum_Proofs4 Sum_Proofs5
  Arg_Spec Arg_Proofs Arg_Proofs2 Arg_Proofs3 Arg_Proofs4 EndToEnd_Spec Whole_Model Whole_Grid Whole_Entry.
From Coq Require Import Lqa Lra.
Open Scope R_scope.

Section Inv.
  Variables (f : cplx -> cR) (zeros : list point) (L : R) (R0 : rect) (rho theta : cplx -> R).
  Hypothesis f_proper : forall z z', ceq z z' -> f z = f z'.
  Hypothesis L_pos : 0 <= L.
  Hypothesis f_eq : forall z, in_rect R0 z -> 0 < rho z /\
       f z = cmulR (zero_product zeros z) (rho z * cos (theta z), rho z * sin (theta z)).
  Hypothesis theta_lip : forall z z', in_rect R0 z -> in_rect R0 z' ->
       Rabs (theta z' - theta z) <= L * (Rabs (Q2R (re z' - re z)) + Rabs (Q2R (im z' - im z))).
  Variable eta : R.
  Hypothesis eta_small : eta < PI.
  Variables (delta : R) (mp : Q) (n : nat) (prec : Z * Z) (fuel : nat).
  Hypothesis delta_pos : 0 < delta.
  Hypothesis n_big : (2 <= n)%nat.
  Hypothesis fuel_big : (100 * n + 3 <= fuel)%nat.
  Variables (turns : R -> Q) (eps : R).
  Hypothesis turns_close : forall p, Rabs (Q2R (turns p) - p / (2 * PI)) <= eps.
  Hypothesis turns_nonzero : forall p, ~ (turns p == 0)%Q.
  Variable P : Z * Z.
  Hypothesis wide0 : (x1 R0 < x2 R0 /\ y1 R0 < y2 R0)%Q.
  Hypothesis sampled : forall q, cell_of P R0 q -> well_sampled n eta L zeros q.

  Notation Th := (Theta zeros theta).
  Notation cell := (cell P R0).
  Definition gap (h : bool) : Q :=
    ((if h then x2 R0 - x1 R0 else y2 R0 - y1 R0) / inject_Z (Z.of_nat (n - 1)))%Q.
  Notation valid h := (valid f zeros R0 theta eta (gap h) h).

  (** ** Cells *)
  Fixpoint vpath (p : path) : Prop :=
    match p with
    | [] => True
    | _ :: p' => vpath p' /\ ~ sub_tolerance P (cell p')
    end.

  Lemma vpath_cell p : vpath p -> cell_of P R0 (cell p).
  Proof.
    induction p as [|b p IH]; intro H; [constructor|]. destruct H as [H1 H2]. cbn [Whole_Grid.cell]. unfold child.
    destruct (wider_b P (cell p)) eqn:W; unfold wider_b in W.
    - apply Qltb_true in W. destruct b; constructor; auto.
    - apply Qltb_false in W. destruct b; constructor; auto; unfold wider; Lqa.lra.
  Qed.

  Lemma child_inside b q : (x1 q < x2 q)%Q -> (y1 q < y2 q)%Q -> inside q (child P b q).
  Proof.
    intros A B. unfold child, inside.
    assert (M : forall u v, (u < v)%Q -> (u <= (u + v) / 2 /\ (u + v) / 2 <= v)%Q).
    { intros u v H. split; [apply Qle_shift_div_l|apply Qle_shift_div_r]; try reflexivity; Lqa.lra. }
    pose proof (M _ _ A). pose proof (M _ _ B).
    destruct (wider_b P q), b; cbn [x1 x2 y1 y2]; repeat split; Lqa.lra.
  Qed.

  Lemma cell_inside p : inside R0 (cell p).
  Proof.
    induction p as [|b p IH]; [unfold inside; cbn; repeat split; Lqa.lra|].
    destruct (cell_wide P R0 wide0 p) as [W1 W2].
    pose proof (child_inside b (cell p) W1 W2) as C. unfold inside in *. cbn [Whole_Grid.cell].
    destruct IH as (? & ? & ? & ?), C as (? & ? & ? & ?). repeat split; Lqa.lra.
  Qed.

  Lemma side_member q i : In (ehor i, elevel q i, elo q i, ehi q i) (side_list q).
  Proof. destruct i; unfold elo, ehi; cbn; tauto. Qed.

  Lemma side_fine p i : vpath p -> fine f zeros R0 theta eta n (ehor i) (elevel (cell p) i) (elo (cell p) i) (ehi (cell p) i).
  Proof.
    intro H. apply (sampled_fine f zeros L R0 rho theta L_pos f_eq theta_lip eta n (cell p) n_big);
      [apply cell_inside|exact (cell_wide P R0 wide0 p)|apply sampled, vpath_cell, H|apply side_member].
  Qed.

  Lemma side_gap p i : ((ehi (cell p) i - elo (cell p) i) / inject_Z (Z.of_nat (n - 1)) <= gap (ehor i))%Q.
  Proof.
    unfold gap. apply Qmult_le_r; [apply Qinv_lt_0_compat, steps_count, n_big|].
    destruct (cell_inside p) as (A & B & C & D). unfold elo, ehi. destruct (ehor i); Lqa.lra.
  Qed.

  (** ** Oriented keys *)
  Definition change (k : ckey) : R :=
    if Qeq_bool (im (fst k)) (im (snd k))
    then Th true (im (fst k)) (re (snd k)) - Th true (im (fst k)) (re (fst k))
    else Th false (re (fst k)) (im (snd k)) - Th false (re (fst k)) (im (fst k)).
  Definition ends_in (k : ckey) : Prop := in_rect R0 (fst k) /\ in_rect R0 (snd k).
  Definition ee : R := eta / PI + eps.
  Definition good (k : ckey) (v : cplx) : Prop :=
    ends_in k /\ parallel (fst k) (snd k) /\ ceqb v c0 = false /\ Rabs (Q2R (re v) - change k / (2 * PI)) <= ee.

  Lemma in_rect_ceq z z' : ceq z z' -> in_rect R0 z -> in_rect R0 z'.
  Proof. unfold ceq, in_rect. intros [A B] ((? & ?) & (? & ?)). repeat split; Lqa.lra. Qed.

  Lemma change_cong k k' : ckey_eqb k k' = true -> ends_in k -> parallel (fst k) (snd k) -> change k = change k'.
  Proof.
    intros E [I1 I2] HP. apply ckey_iff in E. destruct E as [E1 E2].
    pose proof (in_rect_ceq _ _ E1 I1) as I1'. pose proof (in_rect_ceq _ _ E2 I2) as I2'.
    destruct k as [[a1 b1] [a2 b2]], k' as [[a1' b1'] [a2' b2']].
    unfold change, ends_in, parallel, in_rect, ceq in *. cbn [fst snd re im] in *.
    destruct E1 as [E1 E1'], E2 as [E2 E2'].
    assert (HB : Qeq_bool b1 b2 = Qeq_bool b1' b2').
    { destruct (Qeq_bool b1 b2) eqn:X.
      - symmetry. apply Qeq_bool_iff. apply Qeq_bool_iff in X. Lqa.lra.
      - symmetry. apply Qeqb_false. intro C. assert (b1 == b2)%Q by Lqa.lra. apply Qeq_bool_iff in H. congruence. }
    rewrite <- HB. destruct (Qeq_bool b1 b2) eqn:X.
    - apply Qeq_bool_iff in X.
      rewrite (Theta_ceq zeros L R0 theta theta_lip true b1 b1' a2 a2' E1' E2)
        by (unfold in_rect; cbn [mkpoint fst snd re im]; repeat split; Lqa.lra).
      rewrite (Theta_ceq zeros L R0 theta theta_lip true b1 b1' a1 a1' E1' E1)
        by (unfold in_rect; cbn [mkpoint fst snd re im]; repeat split; Lqa.lra).
      reflexivity.
    - destruct HP as [HP|HP]; [apply Qeq_bool_iff in HP; congruence|].
      rewrite (Theta_ceq zeros L R0 theta theta_lip false a1 a1' b2 b2' E1 E2')
        by (unfold in_rect; cbn [mkpoint fst snd re im]; repeat split; Lqa.lra).
      rewrite (Theta_ceq zeros L R0 theta theta_lip false a1 a1' b1 b1' E1 E1')
        by (unfold in_rect; cbn [mkpoint fst snd re im]; repeat split; Lqa.lra).
      reflexivity.
  Qed.

  Lemma good_cong k k' v : ckey_eqb k k' = true -> good k v -> good k' v.
  Proof.
    intros E (G1 & G2 & G3 & G4). pose proof (change_cong k k' E G1 G2) as C. rewrite C in G4.
    apply ckey_iff in E. destruct E as [E1 E2]. destruct G1 as [I1 I2].
    split; [split; eapply in_rect_ceq; eassumption|]. split; [|split; assumption].
    unfold parallel, ceq in *. destruct E1, E2, G2; [left|right]; Lqa.lra.
  Qed.

  Lemma change_reverse k : ends_in k -> parallel (fst k) (snd k) -> change (rkey k) = - change k.
  Proof.
    intros [I1 I2] HP. destruct k as [[a1 b1] [a2 b2]]. unfold change, rkey, parallel, in_rect in *.
    cbn [fst snd re im] in *.
    assert (HB : Qeq_bool b2 b1 = Qeq_bool b1 b2).
    { destruct (Qeq_bool b1 b2) eqn:X; [apply Qeq_bool_iff in X; apply Qeq_bool_iff; symmetry; exact X|].
      apply Qeqb_false. intro C. assert (b1 == b2)%Q by Lqa.lra. apply Qeq_bool_iff in H. congruence. }
    rewrite HB. destruct (Qeq_bool b1 b2) eqn:X.
    - apply Qeq_bool_iff in X.
      rewrite (Theta_ceq zeros L R0 theta theta_lip true b2 b1 a1 a1) by
        (first [symmetry; exact X|reflexivity|unfold in_rect; cbn [mkpoint fst snd re im]; repeat split; Lqa.lra]).
      rewrite (Theta_ceq zeros L R0 theta theta_lip true b2 b1 a2 a2) by
        (first [symmetry; exact X|reflexivity|unfold in_rect; cbn [mkpoint fst snd re im]; repeat split; Lqa.lra]).
      ring.
    - destruct HP as [HP|HP]; [apply Qeq_bool_iff in HP; congruence|].
      rewrite (Theta_ceq zeros L R0 theta theta_lip false a2 a1 b1 b1) by
        (first [symmetry; exact HP|reflexivity|unfold in_rect; cbn [mkpoint fst snd re im]; repeat split; Lqa.lra]).
      rewrite (Theta_ceq zeros L R0 theta theta_lip false a2 a1 b2 b2) by
        (first [symmetry; exact HP|reflexivity|unfold in_rect; cbn [mkpoint fst snd re im]; repeat split; Lqa.lra]).
      ring.
  Qed.

  Lemma good_reverse k v : good k v -> good (rkey k) (copp v).
  Proof.
    intros (G1 & G2 & G3 & G4). split; [destruct G1; split; assumption|].
    split; [unfold parallel in *; cbn [rkey fst snd]; destruct G2; [left|right]; symmetry; assumption|].
    split.
    - destruct (ceqb (copp v) c0) eqn:X; [|reflexivity]. apply ceqb_eq in X. rewrite <- G3. symmetry.
      apply ceqb_eq. unfold ceq, copp, c0 in *. destruct v as [a b]. cbn [re im fst snd] in *.
      destruct X. split; Lqa.lra.
    - rewrite change_reverse by assumption.
      replace (Q2R (re (copp v))) with (- Q2R (re v)) by (destruct v; cbn; rewrite Q2R_opp; reflexivity).
      replace (- Q2R (re v) - - change k / (2 * PI)) with (- (Q2R (re v) - change k / (2 * PI))) by (field; pose proof PI_RGT_0; lra).
      rewrite Rabs_Ropp. exact G4.
  Qed.

  Lemma edge_ends p i : ends_in (ekey (cell p) i) /\ parallel (fst (ekey (cell p) i)) (snd (ekey (cell p) i)).
  Proof.
    destruct (cell_inside p) as (A & B & C & D'). destruct (cell_wide P R0 wide0 p) as [W1 W2].
    unfold ends_in, in_rect, parallel. destruct i; cbn [ekey fst snd re im];
      (split; [repeat split; Lqa.lra|]); (left; reflexivity) || (right; reflexivity).
  Qed.

  Definition forward (i : eidx) : bool := match i with EB | ER => true | _ => false end.
  Lemma edge_change p i : change (ekey (cell p) i) =
    let d := Th (ehor i) (elevel (cell p) i) (ehi (cell p) i) - Th (ehor i) (elevel (cell p) i) (elo (cell p) i) in
    if forward i then d else - d.
  Proof.
    destruct (cell_wide P R0 wide0 p) as [W1 W2].
    unfold change, elo, ehi. destruct i; cbn [ekey fst snd re im ehor elevel forward].
    - rewrite Qeq_bool_refl. reflexivity.
    - assert (Qeq_bool (y1 (cell p)) (y2 (cell p)) = false) as -> by (apply Qeqb_false; Lqa.lra). reflexivity.
    - rewrite Qeq_bool_refl. ring.
    - assert (Qeq_bool (y2 (cell p)) (y1 (cell p)) = false) as -> by (apply Qeqb_false; Lqa.lra). ring.
  Qed.

  Lemma edge_line p i st : sum_line f delta mp n prec fuel 0 (fst (ekey (cell p) i)) (snd (ekey (cell p) i)) st =
    let r := sum_line f delta mp n prec fuel 0 (mkpoint (ehor i) (elevel (cell p) i) (elo (cell p) i))
                (mkpoint (ehor i) (elevel (cell p) i) (ehi (cell p) i)) st in
    if forward i then r else (fst r, negated (snd r)).
  Proof.
    destruct (cell_wide P R0 wide0 p) as [W1 W2].
    unfold elo, ehi. destruct i; cbn [ekey fst snd ehor elevel forward mkpoint]; cbn zeta; try reflexivity.
    - apply sum_line_swap. Lqa.lra.
    - apply sum_line_swap_vertical. Lqa.lra.
  Qed.

  (** ** The invariant *)
  Definition grid_level (h : bool) (l : Q) : Prop :=
    exists p i, vpath p /\ ehor i = h /\ (elevel (cell p) i == l)%Q.
  (** Entries from before the search; where the search can meet one, it covers the side asked for. *)
  Variable old : bool -> Q -> Q -> side -> entry R -> Prop.
  Hypothesis old_start : forall p i l t v, vpath p -> old (ehor i) l t StartSide v ->
    (l == elevel (cell p) i)%Q -> (t == elo (cell p) i)%Q ->
    exists b, (ehi (cell p) i <= b)%Q /\ valid (ehor i) (elevel (cell p) i) (elo (cell p) i) b v.
  Hypothesis old_end : forall p i l t v, vpath p -> old (ehor i) l t EndSide v ->
    (l == elevel (cell p) i)%Q -> (t == ehi (cell p) i)%Q ->
    exists a, (a <= elo (cell p) i)%Q /\ valid (ehor i) (elevel (cell p) i) a (ehi (cell p) i) v.
  Record inv (D : path -> eidx -> Prop) (F : path -> Prop) (c : ecache) (st : sum_state R) : Prop := mkInv {
    i_valid : forall p i, D p i -> vpath p;
    i_anc : forall b p i j, D (b :: p) i -> D p j;
    i_keys : forall p i k, D p i -> k = ekey (cell p) i \/ k = rkey (ekey (cell p) i) ->
      (exists v, ec_lookup 0 (fst k) (snd k) c = Some v) \/
      (exists c' j, F c' /\ ckey_eqb k (ekey (cell c') j) = true);
    i_good : forall k v, ec_lookup 0 (fst k) (snd k) c = Some v -> good k v;
    i_sym : forall k v, ec_lookup 0 (fst k) (snd k) c = Some v ->
      (exists v', ec_lookup 0 (snd k) (fst k) c = Some v') \/
      (exists c' j, F c' /\ ckey_eqb (rkey k) (ekey (cell c') j) = true);
    i_entry : forall h l t s v, grid_level h l -> cached (line_cache h st) l 0 t s = Some v ->
      (exists p i, D p i /\ ehor i = h /\ (elevel (cell p) i == l)%Q /\
        (match s with StartSide => elo (cell p) i | EndSide => ehi (cell p) i end == t)%Q /\
        valid (ehor i) (elevel (cell p) i) (elo (cell p) i) (ehi (cell p) i) v) \/ old h l t s v
  }.

  (** Cell [p] may be evaluated now. *)
  Record ready (D : path -> eidx -> Prop) (F : path -> Prop) (p : path) : Prop := mkReady {
    r_valid : vpath p;
    r_anc : forall b p', p = b :: p' -> forall j, D p' j;
    r_fresh : forall rh j, D (rh ++ p) j -> rh = [];
    r_finished : forall c, F c -> ~ nested c p
  }.

  Definition add (D : path -> eidx -> Prop) (p : path) (i : eidx) : path -> eidx -> Prop :=
    fun q j => D q j \/ (q = p /\ j = i).

  Lemma anc_all D F c st : inv D F c st -> forall rh q i j, rh <> [] -> D (rh ++ q) i -> D q j.
  Proof.
    intros HI rh. induction rh as [|b rh IH]; intros q i j N H; [congruence|].
    destruct rh as [|b' rh]; [exact (i_anc _ _ _ _ HI b q i j H)|].
    apply (IH q EB j); [discriminate|]. exact (i_anc _ _ _ _ HI b _ i EB H).
  Qed.

  (** What a request can meet in the internal caches: only longer lines. *)
  Lemma entry_longer D F c st p i : inv D F c st -> ready D F p ->
    ec_lookup 0 (fst (ekey (cell p) i)) (snd (ekey (cell p) i)) c = None ->
    forall q j, D q j -> ehor j = ehor i -> (elevel (cell q) j == elevel (cell p) i)%Q ->
    (elo (cell q) j == elo (cell p) i -> ehi (cell p) i <= ehi (cell q) j)%Q /\
    (ehi (cell q) j == ehi (cell p) i -> elo (cell q) j <= elo (cell p) i)%Q.
  Proof.
    intros HI HR HN q j HD HH HV.
    destruct (Nat.le_gt_cases (List.length q) (List.length p)) as [LE|GT].
    - destruct (longer P R0 wide0 p q i j LE (eq_sym HH)) as [A B]. split; intro E; [apply A|apply B]; symmetry; exact E.
    - assert (C : ~ (elo (cell p) i == elo (cell q) j \/ ehi (cell p) i == ehi (cell q) j)%Q).
      { intro E. destruct (split_path q (List.length p) ltac:(lia)) as (rh & q0 & -> & L0).
        assert (NR : rh <> []) by (intros ->; cbn [app] in GT; lia).
        destruct (touch P R0 wide0 p rh q0 i j L0 (eq_sym HH) (Qeq_sym _ _ HV) E) as [T1 T2].
        destruct (same_horizontal i j (eq_sym HH)) as [-> | ->].
        - rewrite (T2 eq_refl) in HD. apply NR. exact (r_fresh _ _ _ HR rh i HD).
        - pose proof (anc_all _ _ _ _ HI rh q0 _ (eopp i) NR HD) as D0.
          pose proof (key_opposite P R0 p q0 i T1) as K.
          destruct (i_keys _ _ _ _ HI q0 (eopp i) _ D0 (or_intror eq_refl)) as [[v Hv]|(c' & k & Fc & Kc)].
          + apply ckey_iff in K. destruct K as [K1 K2].
            rewrite (lookup_cong 0 _ _ _ _ c K1 K2) in Hv. congruence.
          + apply (r_finished _ _ _ HR c' Fc). apply nested_sym. apply (key_nested P R0 wide0 p c' i k).
            rewrite ckey_s in K. exact (ckey_t _ _ _ K Kc). }
      split; intro E; exfalso; apply C; [left|right]; symmetry; exact E.
  Qed.

  Lemma ready_add D F p i : ready D F p -> ready (add D p i) F p.
  Proof.
    intros [A B C E]. split; [exact A| | |exact E].
    - intros b p' -> j. left. apply (B b p' eq_refl).
    - intros rho' j [H|[H _]]; [exact (C rho' j H)|].
      assert (X : List.length (rho' ++ p) = List.length p) by congruence. rewrite app_length in X.
      destruct rho'; [reflexivity|cbn in X; lia].
  Qed.

  Lemma inv_add_key D F c st p i v : inv D F c st -> ready D F p ->
    ec_lookup 0 (fst (ekey (cell p) i)) (snd (ekey (cell p) i)) c = Some v -> inv (add D p i) F c st.
  Proof.
    intros HI HR HV. destruct HI as [A B C E G K]. split.
    - intros q j [H|[-> ->]]; [exact (A q j H)|apply HR].
    - intros b q j k [H|[EQ ->]]; [left; exact (B b q j k H)|].
      left. apply (r_anc _ _ _ HR b q (eq_sym EQ)).
    - intros q j k [H|[-> ->]]; [exact (C q j k H)|].
      intros [->| ->]; [left; eauto|]. exact (G _ _ HV).
    - exact E.
    - exact G.
    - intros h l t s w HG H. destruct (K h l t s w HG H) as [(q & j & Hq & Rest)|O]; [left|right; exact O].
      exists q, j. split; [left; exact Hq|exact Rest].
  Qed.

  (** Evaluating one side. *)
  Lemma evaluate_side D F c st p i : inv D F c st -> ready D F p ->
    let k := ekey (cell p) i in
    ec_lookup 0 (fst k) (snd k) c = None ->
    (exists st' v, turn_line turns f delta mp n prec fuel 0 (fst k) (snd k) st = (st', [], Ok v) /\ good k v /\
       inv (add D p i) F (ec_store 0 (snd k) (fst k) (copp v) (ec_store 0 (fst k) (snd k) v c)) st') \/
    (turn_line turns f delta mp n prec fuel 0 (fst k) (snd k) st = (st, [], Err IndexError) /\
     (ht P R0 (List.length p) < gap false)%Q).
  Proof.
    intros HI HR k HN. pose proof (r_valid _ _ _ HR) as HVP.
    assert (GL : grid_level (ehor i) (elevel (cell p) i)) by (exists p, i; split; [exact HVP|split; reflexivity]).
    destruct (request_line f zeros R0 theta f_proper eta eta_small (gap (ehor i)) delta mp n prec fuel
      delta_pos n_big fuel_big (ehor i) (elevel (cell p) i) (elo (cell p) i) (ehi (cell p) i) st
      (side_fine p i HVP) (side_gap p i)) as [(st' & ph & v & R1 & R2 & R3 & R4 & R5)|(H1 & H2 & H3)].
    - intros v Hv. destruct (i_entry _ _ _ _ HI _ _ _ _ _ GL Hv) as [(q & j & Dq & Hh & Hl & Hs & HV)|O].
      2:{ exact (old_start p i _ _ v HVP O (Qeq_refl _) (Qeq_refl _)). }
      rewrite Hh in HV.
      destruct (entry_longer D F c st p i HI HR HN q j Dq Hh Hl) as [A _].
      exists (ehi (cell q) j). split; [apply A, Hs|].
      revert HV. apply (valid_eq f zeros L R0 theta f_proper theta_lip eta); [exact Hl|exact Hs|reflexivity].
    - intros v Hv. destruct (i_entry _ _ _ _ HI _ _ _ _ _ GL Hv) as [(q & j & Dq & Hh & Hl & Hs & HV)|O].
      2:{ exact (old_end p i _ _ v HVP O (Qeq_refl _) (Qeq_refl _)). }
      rewrite Hh in HV.
      destruct (entry_longer D F c st p i HI HR HN q j Dq Hh Hl) as [_ A].
      exists (elo (cell q) j). split; [apply A, Hs|].
      revert HV. apply (valid_eq f zeros L R0 theta f_proper theta_lip eta); [exact Hl|reflexivity|exact Hs].
    - left. set (ph' := if forward i then ph else - ph).
      assert (E : turn_line turns f delta mp n prec fuel 0 (fst k) (snd k) st = (st', [], Ok (turns ph', 0%Q))).
      { unfold turn_line, k. rewrite edge_line. cbn zeta. rewrite R1. unfold ph'. destruct (forward i); reflexivity. }
      exists st', (turns ph', 0%Q). split; [exact E|].
      assert (CH : Rabs (ph' - change k) <= 2 * eta).
      { unfold k. rewrite edge_change. cbn zeta. unfold ph'. destruct (forward i); [exact R2|].
        replace (- ph - - _) with (- (ph - (Th (ehor i) (elevel (cell p) i) (ehi (cell p) i) - Th (ehor i) (elevel (cell p) i) (elo (cell p) i)))) by ring.
        rewrite Rabs_Ropp. exact R2. }
      assert (GD : good k (turns ph', 0%Q)).
      { destruct (edge_ends p i) as [G1 G2]. split; [exact G1|]. split; [exact G2|]. split.
        - destruct (ceqb _ c0) eqn:X; [|reflexivity]. apply ceqb_eq in X. destruct X as [X _]. exfalso.
          apply (turns_nonzero ph'). exact X.
        - cbn [re fst]. pose proof (turns_close ph') as T. pose proof PI_RGT_0 as PI0.
          replace (Q2R (turns ph') - change k / (2 * PI)) with
            ((Q2R (turns ph') - ph' / (2 * PI)) + (ph' - change k) * / (2 * PI)) by (field; lra).
          eapply Rle_trans; [apply Rabs_triang|]. rewrite Rabs_mult.
          rewrite (Rabs_pos_eq (/ (2 * PI))) by (left; apply Rinv_0_lt_compat; lra).
          unfold ee. assert (Rabs (ph' - change k) * / (2 * PI) <= eta / PI).
          { apply Rle_trans with (2 * eta * / (2 * PI)).
            - apply Rmult_le_compat_r; [left; apply Rinv_0_lt_compat; lra|exact CH].
            - right. field. lra. }
          lra. }
      split; [exact GD|].
      set (v0 := (turns ph', 0%Q)) in *. pose proof (good_reverse _ _ GD) as GR.
      assert (LK : forall a b, ec_lookup 0 a b (ec_store 0 (snd k) (fst k) (copp v0) (ec_store 0 (fst k) (snd k) v0 c)) =
        if ckey_eqb (a, b) (rkey k) then Some (copp v0) else if ckey_eqb (a, b) k then Some v0 else ec_lookup 0 a b c).
      { intros a b. rewrite !lookup_store. reflexivity. }
      destruct HI as [A B C E' G K]. split.
      + intros q j [H|[-> ->]]; [exact (A q j H)|exact HVP].
      + intros b q j k' [H|[EQ ->]]; [left; exact (B b q j k' H)|]. left. apply (r_anc _ _ _ HR b q (eq_sym EQ)).
      + intros q j k' Hq Hk.
        assert (GO : ckey_eqb k' (rkey k) = true \/ ckey_eqb k' k = true \/
          ((exists v', ec_lookup 0 (fst k') (snd k') c = Some v') \/
           exists c' j', F c' /\ ckey_eqb k' (ekey (cell c') j') = true)).
        { destruct Hq as [Hq|[-> ->]]; [right; right; exact (C q j k' Hq Hk)|].
          destruct Hk as [->| ->]; [right; left; apply ckey_r|left; apply ckey_r]. }
        rewrite LK. destruct k' as [a b]. cbn [fst snd] in *.
        destruct (ckey_eqb (a, b) (rkey k)) eqn:X1; [left; eauto|].
        destruct (ckey_eqb (a, b) k) eqn:X2; [left; eauto|].
        destruct GO as [X|[X|X]]; [congruence|congruence|exact X].
      + intros [a b] w. rewrite LK. cbn [fst snd].
        destruct (ckey_eqb (a, b) (rkey k)) eqn:X1.
        { intro W. injection W as <-. apply (good_cong (rkey k)); [rewrite ckey_s; exact X1|exact GR]. }
        destruct (ckey_eqb (a, b) k) eqn:X2.
        { intro W. injection W as <-. apply (good_cong k); [rewrite ckey_s; exact X2|exact GD]. }
        apply (E' (a, b)).
      + intros [a b] w. rewrite !LK. cbn [fst snd].
        assert (SW : forall k1 k2, ckey_eqb (rkey k1) (rkey k2) = ckey_eqb k1 k2).
        { intros [? ?] [? ?]. unfold ckey_eqb, rkey. cbn [fst snd]. apply andb_comm. }
        destruct (ckey_eqb (a, b) (rkey k)) eqn:X1.
        { intros _. left. assert (ckey_eqb (b, a) k = true) as -> by (rewrite <- (SW (b, a) k); exact X1).
          destruct (ckey_eqb (b, a) (rkey k)); eauto. }
        destruct (ckey_eqb (a, b) k) eqn:X2.
        { intros _. left. assert (ckey_eqb (b, a) (rkey k) = true) as -> by (rewrite <- (SW (a, b) k) in X2; exact X2). eauto. }
        intro W. destruct (G (a, b) w W) as [[v' Hv']|Y]; [left|right; exact Y]. cbn [fst snd] in Hv'.
        destruct (ckey_eqb (b, a) (rkey k)); [eauto|]. destruct (ckey_eqb (b, a) k); eauto.
      + intros h l t s w HG H.
        assert (CASE : (ehor i = h /\ hit (ehor i) (elevel (cell p) i) (elo (cell p) i) (ehi (cell p) i) l t s = true /\ w = v) \/
                       cached (line_cache h st) l 0 t s = Some w).
        { destruct (Bool.bool_dec (ehor i) h) as [<-|NE].
          - rewrite R5 in H. destruct (hit _ _ _ _ l t s) eqn:X; [|right; exact H]. injection H as <-. auto.
          - right. rewrite <- H. f_equal. unfold line_cache, other_cache in *.
            destruct h, (ehor i); try congruence; symmetry; exact R4. }
        destruct CASE as [(<- & X & ->)|X].
        * left. exists p, i. split; [right; split; reflexivity|]. split; [reflexivity|].
          unfold hit in X. apply andb_true_iff in X as [X1 X2]. apply Qeq_bool_iff in X1.
          split; [symmetry; exact X1|]. split; [|exact R3].
          destruct s; apply Qeq_bool_iff in X2; symmetry; exact X2.
        * destruct (K h l t s w HG X) as [(q & j & Hq & Rest)|O]; [left|right; exact O].
          exists q, j. split; [left; exact Hq|exact Rest].
    - right. split.
      + unfold turn_line, k. rewrite edge_line. cbn zeta. rewrite H3. destruct (forward i); reflexivity.
      + destruct (cell_dims P R0 p) as [_ HT]. unfold elo, ehi in H2. rewrite H1 in H2. Lqa.lra.
  Qed.

  Lemma inv_ext D D' (F F' : path -> Prop) c c' st : (forall q j, D q j <-> D' q j) -> (forall q, F q -> F' q) ->
    (forall a b, ec_lookup 0 a b c' = ec_lookup 0 a b c) ->
    inv D F c st -> inv D' F' c' st.
  Proof.
    intros HD HF HC [A B C E G K]. split.
    - intros q j H. apply HD in H. exact (A q j H).
    - intros b q i j H. apply HD. apply HD in H. exact (B b q i j H).
    - intros q i k H Hk. apply HD in H. rewrite HC. destruct (C q i k H Hk) as [X|(c1 & j & Fc & X)]; [left; exact X|].
      right. exists c1, j. auto.
    - intros k v. rewrite HC. apply E.
    - intros k v. rewrite !HC. intro H. destruct (G k v H) as [X|(c1 & j & Fc & X)]; [left; exact X|].
      right. exists c1, j. auto.
    - intros h l t s v HG H. destruct (K h l t s v HG H) as [(q & j & Hq & Rest)|O]; [left|right; exact O].
      exists q, j. split; [apply HD, Hq|exact Rest].
  Qed.

  Lemma inv_remove D F c st q j : inv D F c st ->
    inv D (fun c' => F c' \/ c' = q) (ec_remove 0 (fst (ekey (cell q) j)) (snd (ekey (cell q) j)) c) st.
  Proof.
    intros [A B C E G K].
    assert (LK : forall a b, ec_lookup 0 a b (ec_remove 0 (fst (ekey (cell q) j)) (snd (ekey (cell q) j)) c) =
      if ckey_eqb (a, b) (ekey (cell q) j) then None else ec_lookup 0 a b c).
    { intros a b. rewrite lookup_remove. reflexivity. }
    split; [exact A|exact B| | | |exact K].
    - intros p i k H Hk. rewrite LK. destruct k as [a b]. cbn [fst snd].
      destruct (ckey_eqb (a, b) (ekey (cell q) j)) eqn:X.
      + right. exists q, j. auto.
      + destruct (C p i (a, b) H Hk) as [Y|(c1 & j1 & Fc & Y)]; [left; exact Y|right; exists c1, j1; auto].
    - intros [a b] v. rewrite LK. cbn [fst snd]. destruct (ckey_eqb (a, b) _); [discriminate|]. apply (E (a, b)).
    - intros [a b] v. rewrite !LK. cbn [fst snd]. destruct (ckey_eqb (a, b) _); [discriminate|]. intro H.
      destruct (ckey_eqb (b, a) (ekey (cell q) j)) eqn:X.
      + right. exists q, j. auto.
      + destruct (G (a, b) v H) as [Y|(c1 & j1 & Fc & Y)]; [left; exact Y|right; exists c1, j1; auto].
  Qed.

  Definition tight : Prop := exists p, vpath p /\ (ht P R0 (List.length p) < gap false)%Q.

  (** ** Evaluating a cell *)
  Variable debug : bool.
  Notation loop := (moment_loop (turn_line turns f delta mp n prec fuel) debug 0).

  Definition adds (D : path -> eidx -> Prop) (p : path) (is : list eidx) : path -> eidx -> Prop :=
    fun q j => D q j \/ (q = p /\ In j is).

  Definition changes (p : path) (is : list eidx) : R :=
    fold_right (fun i s => change (ekey (cell p) i) + s) 0 is.

  Lemma moment_sides p (F : path -> Prop) is : forall D c st phi, inv D F c st -> ready D F p ->
    (exists c' st' m, loop (map (ekey (cell p)) is) phi (c, st) = ((c', st'), [], Ok m) /\
       inv (adds D p is) F c' st' /\
       Rabs (Q2R (re m) - Q2R (re phi) - changes p is / (2 * PI)) <= INR (List.length is) * ee) \/
    (exists s', loop (map (ekey (cell p)) is) phi (c, st) = (s', [], Err IndexError) /\ tight).
  Proof.
    pose proof PI_RGT_0 as PI0.
    assert (BUILD : forall i is phi v x m, good (ekey (cell p) i) v ->
      (re x == re phi + re v)%Q ->
      Rabs (Q2R (re m) - Q2R (re x) - changes p is / (2 * PI)) <= INR (List.length is) * ee ->
      Rabs (Q2R (re m) - Q2R (re phi) - changes p (i :: is) / (2 * PI)) <= INR (List.length (i :: is)) * ee).
    { intros i is' phi v x m (_ & _ & _ & GV) EX H. cbn [changes fold_right List.length]. fold (changes p is').
      rewrite S_INR. apply Qeq_eqR in EX. rewrite Q2R_plus in EX. rewrite EX in H.
      replace (Q2R (re m) - Q2R (re phi) - (change (ekey (cell p) i) + changes p is') / (2 * PI))
        with ((Q2R (re m) - (Q2R (re phi) + Q2R (re v)) - changes p is' / (2 * PI)) +
              (Q2R (re v) - change (ekey (cell p) i) / (2 * PI))) by (field; lra).
      eapply Rle_trans; [apply Rabs_triang|]. lra. }
    induction is as [|i is IH]; intros D c st phi HI HR.
    - left. exists c, st, phi. split; [reflexivity|]. split.
      + apply (inv_ext D _ F F c c); [|auto|reflexivity|exact HI]. unfold adds. cbn. tauto.
      + unfold changes. cbn. replace (_ - _ - _) with 0 by (field; lra). rewrite Rabs_R0. lra.
    - cbn [map moment_loop fst snd].
      destruct (ekey (cell p) i) as [a b] eqn:EK.
      set (c1 := fst (ec_retrieve debug 0 a b c)).
      assert (LC : forall u w, ec_lookup 0 u w c1 = ec_lookup 0 u w c) by (intros; apply lookup_retrieve).
      assert (RT : ec_retrieve debug 0 a b c = (c1, ec_lookup 0 a b c)) by reflexivity.
      rewrite RT.
      assert (HI1 : inv D F c1 st) by (apply (inv_ext D D F F c c1); auto; reflexivity).
      assert (EXT : forall c0 st0, inv (adds (add D p i) p is) F c0 st0 -> inv (adds D p (i :: is)) F c0 st0).
      { intros c2 st2. apply inv_ext; [|auto|reflexivity]. intros q j. unfold adds, add. cbn [In].
        split; [intros [[?|[? ?]]|[? ?]]|intros [?|[? [?|?]]]]; subst; auto. }
      destruct (ec_lookup 0 a b c) as [v|] eqn:LV.
      + assert (GV : good (a, b) v) by (apply (i_good _ _ _ _ HI (a, b)); exact LV).
        assert (truthy (Some v) = true) as ->.
        { destruct GV as (_ & _ & GV & _). unfold truthy. rewrite GV. reflexivity. }
        assert (HI2 : inv (add D p i) F c1 st).
        { apply (inv_add_key D F c1 st p i v HI1 HR). rewrite EK. cbn [fst snd]. rewrite LC. exact LV. }
        destruct (IH (add D p i) c1 st (cadd phi v) HI2 (ready_add D F p i HR))
          as [(c' & st' & m & E1 & E2 & E3)|(s' & E1 & E2)].
        * left. exists c', st', m. split; [exact E1|]. split; [apply EXT, E2|].
          apply (BUILD i is phi v (cadd phi v) m); [rewrite EK; exact GV| |exact E3].
          destruct phi, v; reflexivity.
        * right. exists s'. auto.
      + cbn [truthy].
        assert (LN : ec_lookup 0 (fst (ekey (cell p) i)) (snd (ekey (cell p) i)) c1 = None).
        { rewrite EK. cbn [fst snd]. rewrite LC. exact LV. }
        pose proof (evaluate_side D F c1 st p i HI1 HR) as EV. cbn zeta in EV. specialize (EV LN).
        rewrite EK in EV. cbn [fst snd] in EV.
        destruct EV as [(st1 & v & E1 & GV & HI2)|(E1 & TG)]; rewrite E1.
        * destruct (IH (add D p i) _ st1 (cadd phi v) HI2 (ready_add D F p i HR))
            as [(c' & st' & m & E2 & E3 & E4)|(s' & E2 & E3)]; rewrite E2.
          -- left. exists c', st', m. split; [reflexivity|]. split; [apply EXT, E3|].
             apply (BUILD i is phi v (cadd phi v) m); [rewrite EK; exact GV| |exact E4].
             destruct phi, v; reflexivity.
          -- right. exists s'. auto.
        * right. eexists. split; [reflexivity|]. exists p. split; [apply HR|exact TG].
  Qed.

  Lemma moment_cell D F c st p : inv D F c st -> ready D F p ->
    (exists c' st' m, cached_moment (turn_line turns f delta mp n prec fuel) debug 0 (cell p) (c, st) = ((c', st'), [], Ok m) /\
       inv (fun q j => D q j \/ q = p) F c' st' /\
       Rabs (Q2R (re m) - INR (count zeros (cell p))) <= 4 * ee) \/
    (exists s', cached_moment (turn_line turns f delta mp n prec fuel) debug 0 (cell p) (c, st) = (s', [], Err IndexError) /\ tight).
  Proof.
    intros HI HR. pose proof PI_RGT_0 as PI0. unfold cached_moment. rewrite edges_keys.
    destruct (moment_sides p F [EB; ER; ET; EL] D c st c0 HI HR) as [(c' & st' & m & E1 & E2 & E3)|E]; [left|right; exact E].
    exists c', st', m. split; [exact E1|]. split.
    - revert E2. apply inv_ext; [|auto|reflexivity]. intros q j. unfold adds.
      split; [intros [?|[? ?]]; auto|]. intros [?| ->]; [auto|]. right. split; [reflexivity|]. destruct j; cbn; tauto.
    - assert (CH : changes p [EB; ER; ET; EL] = 2 * PI * INR (count zeros (cell p))).
      { rewrite <- (winding_side zeros L theta eta n P (cell p) (cell_wide P R0 wide0 p)
          (sampled _ (vpath_cell p (r_valid _ _ _ HR)))).
        unfold changes. cbn [fold_right]. rewrite !edge_change. cbn [forward ehor elevel]. unfold elo, ehi. cbn [ehor]. ring. }
      rewrite CH in E3. change (INR (List.length [EB; ER; ET; EL])) with (INR 4) in E3.
      replace (INR 4) with 4 in E3 by (cbn; lra).
      replace (Q2R (re c0)) with 0 in E3 by (symmetry; exact RMicromega.Q2R_0).
      replace (2 * PI * INR (count zeros (cell p)) / (2 * PI)) with (INR (count zeros (cell p))) in E3 by (field; lra).
      rewrite Rminus_0_r in E3. exact E3.
  Qed.
End Inv.
