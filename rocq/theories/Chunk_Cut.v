(** A job whose upper side is cut leaves a short entry for it in the line caches. *)
From Coq Require Import Reals Qreals Qminmax.
From Verif Require Import PyBase Rounding_Model Poly_Model Container_Model Finder_Model Finder_Spec
  Refine_Model Refine_Spec Refine_Proofs Zeros_Spec Zeros_Proofs Cache_Model Cache_Spec Cache_Proofs
  Sum_Model Sum_Spec Angle_Proofs Sum_Proofs Sum_Proofs2 Sum_Proofs3 Sum_Proofs4 Sum_Proofs5 Sum_Proofs6
  Arg_Spec Arg_Proofs Arg_Proofs2 Arg_Proofs3 Arg_Proofs4
  EndToEnd_Model EndToEnd_Spec EndToEnd_Proofs Whole_Model Whole_Grid Whole_Entry Whole_Inv Whole_Search Whole_Spec Whole_Proofs
  Whole_Proofs3 Whole_Stale Chunk_Model Chunk_Spec Chunk_Frame.
From Coq Require Import Lqa Lra.
Open Scope R_scope.

(** ** Other keys keep their entries *)
Lemma retrieve_other {A} azero aadd aopp fz dp lg fc cl n prec et co pt level fuel t1 t2 (c : lcache A) c' found phi l t s :
  retrieveCached azero aadd aopp fz dp lg fc cl n prec et co pt level fuel 0 t1 t2 c = LineOk c' found phi ->
  ~ ((l == level)%Q /\ match s with StartSide => t == Qmin t1 t2 | EndSide => t == Qmax t1 t2 end)%Q ->
  cached c' l 0 t s = cached c l 0 t s.
Proof.
  intros H N.
  set (s1 := if Qle_bool t1 t2 then t1 else t2). set (s2 := if Qle_bool t1 t2 then t2 else t1).
  assert (E1 : (s1 == Qmin t1 t2)%Q).
  { unfold s1. destruct (Qle_bool t1 t2) eqn:X; [apply Qle_bool_iff in X; symmetry; apply Q.min_l, X|].
    symmetry. apply Q.min_r. apply Qleb_false in X. Lqa.lra. }
  assert (E2 : (s2 == Qmax t1 t2)%Q).
  { unfold s2. destruct (Qle_bool t1 t2) eqn:X; [apply Qle_bool_iff in X; symmetry; apply Q.max_r, X|].
    symmetry. apply Q.max_l. apply Qleb_false in X. Lqa.lra. }
  assert (ST : forall w (c0 : lcache A), dget okey_eqb (level, 0%Z) c0 <> None ->
    (forall l' t' s', cached c0 l' 0 t' s' = cached c l' 0 t' s') -> c' = storeCache level 0 s1 s2 w c0 ->
    cached c' l 0 t s = cached c l 0 t s).
  { intros w c0 HN HC ->. rewrite cached_store by exact HN. rewrite HC.
    unfold okey_eqb, skey_eqb. cbn [fst snd Z.eqb]. rewrite andb_true_r.
    destruct (Qeq_bool l level) eqn:X; [|reflexivity]. apply Qeq_bool_iff in X.
    destruct s; cbn [side_eqb]; rewrite ?andb_true_r, ?andb_false_r.
    - destruct (Qeq_bool t s1) eqn:Y; [|reflexivity]. apply Qeq_bool_iff in Y. exfalso. apply N. split; [exact X|]. rewrite Y. exact E1.
    - destruct (Qeq_bool t s2) eqn:Y; [|reflexivity]. apply Qeq_bool_iff in Y. exfalso. apply N. split; [exact X|]. rewrite Y. exact E2. }
  unfold retrieveCached in H. fold s1 s2 in H.
  destruct (dget okey_eqb (level, 0%Z) c) as [d|] eqn:DL.
  2:{ destruct (genPhiArr _ _ _ _ _ _ _ _ _ _ _) as [zs phis zz|e|]; try discriminate. injection H as H _ _.
      apply (ST (zs, phis) (dset okey_eqb (level, 0%Z) [] c)).
      - rewrite (dget_dset okey_eqb okey_t okey_s), okey_r. discriminate.
      - intros l' t' s'. unfold cached. rewrite (dget_dset okey_eqb okey_t okey_s).
        destruct (okey_eqb (l', 0%Z) (level, 0%Z)) eqn:K; [|reflexivity].
        rewrite (dget_cong okey_eqb okey_t okey_s _ _ c K), DL. reflexivity.
      - symmetry. exact H. }
  assert (DN : dget okey_eqb (level, 0%Z) c <> None) by congruence.
  repeat match type of H with
  | match ?x with _ => _ end = _ => destruct x; try discriminate
  | (if ?x then _ else _) = _ => destruct x; try discriminate
  end; injection H as H _ _; symmetry in H; exact (ST _ c DN (fun _ _ _ => eq_refl) H).
Qed.

Lemma line_other f delta mp n prec fuel a b st h l t s :
  ~ (on_level a b h l /\
   match s with StartSide => t == Qmin (coord_of h a) (coord_of h b) | EndSide => t == Qmax (coord_of h a) (coord_of h b) end)%Q ->
  cached (line_cache h (fst (sum_line f delta mp n prec fuel 0 a b st))) l 0 t s = cached (line_cache h st) l 0 t s.
Proof.
  unfold sum_line, sumLine, line_cache. intro N.
  destruct (Qeq_bool (im a) (im b)) eqn:E1.
  - apply Qeq_bool_iff in E1.
    destruct (retrieveCached _ _ _ _ _ _ _ _ _ _ _ _ _ _ _ _ _ _ _) as [c' found phi|e|] eqn:R; cbn [fst]; try reflexivity.
    cbn [horizontal vertical]. destruct h; [|reflexivity].
    apply (retrieve_other _ _ _ _ _ _ _ _ _ _ _ _ _ _ _ _ _ _ _ _ _ l t s R). intros [X Y]. apply N.
    split; [split; [exact E1|symmetry; exact X]|]. exact Y.
  - destruct (Qeq_bool (re a) (re b)) eqn:E2; [|reflexivity]. apply Qeq_bool_iff in E2.
    destruct (retrieveCached _ _ _ _ _ _ _ _ _ _ _ _ _ _ _ _ _ _ _) as [c' found phi|e|] eqn:R; cbn [fst]; try reflexivity.
    cbn [horizontal vertical]. destruct h; [reflexivity|].
    apply (retrieve_other _ _ _ _ _ _ _ _ _ _ _ _ _ _ _ _ _ _ _ _ _ l t s R). intros [X Y]. apply N.
    split; [split; [exact E2|symmetry; exact X]|]. exact Y.
Qed.

(** ** Horizontal entries have at least three points *)
Lemma filter_le {A} (p : A -> bool) l : (List.length (filter p l) <= List.length l)%nat.
Proof. induction l as [|a l IH]; [cbn; lia|]. cbn. destruct (p a); cbn; lia. Qed.

Section Length.
  Variables (f : cplx -> cR) (zeros : list point) (D : rect) (theta : cplx -> R).
  Hypothesis f_proper : forall z z', ceq z z' -> f z = f z'.
  Variables (eta delta : R) (mp : Q) (n : nat) (prec : Z * Z) (fuel : nat).
  Hypothesis delta_pos : 0 < delta.
  Hypothesis n_big : (3 <= n)%nat.
  Hypothesis fuel_big : (100 * n + 3 <= fuel)%nat.

  Lemma gen_length h l t1 t2 zs phis : fine f zeros D theta eta n h l t1 t2 ->
    gen_phi f delta mp n prec fuel 0 (mkpoint h l t1) (mkpoint h l t2) = Gen zs phis [] -> (3 <= List.length zs)%nat.
  Proof.
    intros HF HG.
    destruct (fine_generates f zeros D theta f_proper eta delta mp n prec fuel delta_pos ltac:(clear - n_big; lia) fuel_big h l t1 t2 HF) as (mid & G & C & SP).
    rewrite HG in G. injection G as -> _.
    destruct mid as [|z mid]; [|cbn [List.length app]; rewrite app_length; cbn; clear; lia]. exfalso.
    destruct SP as [SP _]. destruct HF as [Ht _].
    assert (Ca : coord_of h (mkpoint h l t1) = t1) by (destruct h; reflexivity).
    assert (Cb : coord_of h (mkpoint h l t2) = t2) by (destruct h; reflexivity).
    rewrite Ca, Cb in SP.
    assert (N : (inject_Z 2 <= inject_Z (Z.of_nat (n - 1)))%Q) by (rewrite <- Zle_Qle; clear - n_big; lia).
    change (inject_Z 2) with 2%Q in N. set (m := inject_Z (Z.of_nat (n - 1))) in *. clearbody m.
    apply Qlt_not_le in Ht. apply Ht.
    assert (X : ((t2 - t1) * m <= t2 - t1)%Q).
    { apply (Qmult_le_r _ _ m) in SP; [|Lqa.lra]. setoid_replace ((t2 - t1) / m * m)%Q with (t2 - t1)%Q in SP by (field; Lqa.lra). exact SP. }
    destruct (Qlt_le_dec t1 t2) as [Q|Q]; [|exact Q]. Lqa.nra.
  Qed.

  Lemma entry_length l t1 t2 st st' p v : fine f zeros D theta eta n true l t1 t2 ->
    sum_line f delta mp n prec fuel 0 (mkpoint true l t1) (mkpoint true l t2) st = (st', SumOk [] p) ->
    cached (line_cache true st') l 0 t1 StartSide = Some v -> (3 <= List.length (fst v))%nat.
  Proof.
    intros HF HS HC. assert (Ht : (t1 < t2)%Q) by apply HF.
    assert (ST : forall w (c0 : lcache R), dget okey_eqb (l, 0%Z) c0 <> None ->
      cached (storeCache l 0 t1 t2 w c0) l 0 t1 StartSide = Some w).
    { intros w c0 HN. rewrite cached_store by exact HN. unfold okey_eqb, skey_eqb. cbn [fst snd Z.eqb side_eqb].
      rewrite !Qeq_bool_refl, andb_false_r. reflexivity. }
    rewrite sum_line_as_retrieve in HS by exact Ht. unfold retrieveCached in HS.
    assert (Qltb t1 t2 = true) as X1 by (apply Qltb_true, Ht).
    assert (Qle_bool t1 t2 = true) as X2 by (apply Qle_bool_iff; Lqa.lra).
    rewrite X1, X2 in HS.
    assert (GE : forall c0, dget okey_eqb (l, 0%Z) c0 <> None ->
      match match genPhiArr 0 (vanishes f) (phase_step f) (at_least delta) (refinement delta) (nearer mp) n prec fuel 0
              (mkpoint true l t1) (mkpoint true l t2) with
            | Gen zs phis found => LineOk (storeCache l 0 t1 t2 (zs, phis) c0) found (asum 0 Rplus phis)
            | GenErr e => LineErr e | GenLoops => LineLoops end with
      | LineOk c found phi => (mkSum c (vertical st), SumOk found phi)
      | LineErr e => (st, SumErr e) | LineLoops => (st, SumLoops) end = (st', SumOk [] p) ->
      (3 <= List.length (fst v))%nat).
    { intros c0 HN HE. destruct (genPhiArr _ _ _ _ _ _ _ _ _ _ _) as [zs phis found|e|] eqn:G; try discriminate.
      injection HE as <- -> _. cbn [line_cache horizontal] in HC. rewrite ST in HC by exact HN. injection HC as <-. cbn [fst].
      apply (gen_length true l t1 t2 zs phis HF). unfold gen_phi. exact G. }
    destruct (dget okey_eqb (l, 0%Z) (line_cache true st)) as [d|] eqn:DL.
    2:{ revert HS. apply GE. rewrite (dget_dset okey_eqb okey_t okey_s), okey_r. discriminate. }
    assert (DN : dget okey_eqb (l, 0%Z) (line_cache true st) <> None) by congruence.
    destruct (dget skey_eqb (t1, StartSide) d) as [w|].
    - destruct (Nat.ltb _ 3) eqn:CW; [exact (GE _ DN HS)|]. apply Nat.ltb_ge in CW.
      destruct (last_index _ (fst w)) as [m|] eqn:LI; [|discriminate].
      apply (f_equal fst) in HS. cbn [fst] in HS. rewrite <- HS in HC. cbn [line_cache horizontal] in HC. rewrite ST in HC by exact DN.
      assert (HV := f_equal (fun o => match o with Some u => u | None => v end) HC). cbn iota beta in HV. rewrite <- HV. cbn [fst]. clear HC HV HS.
      destruct (last_index_split _ _ _ LI) as (l1 & y & l2 & E & <- & Hy & H2). rewrite E in *.
      assert (F2 : filter (fun z => Qle_bool (coord_of true z) t2) l2 = []).
      { clear - H2. induction H2 as [|z l H _ IH]; [reflexivity|]. cbn [filter]. rewrite H. exact IH. }
      unfold count_where in CW. rewrite filter_app, app_length in CW. cbn [filter] in CW. rewrite Hy, F2 in CW. cbn [List.length] in CW.
      pose proof (filter_le (fun z => Qle_bool (coord_of true z) t2) l1) as FL.
      rewrite firstn_length, app_length. cbn [List.length]. lia.
    - destruct (dget skey_eqb (t2, EndSide) d) as [w|]; [|exact (GE _ DN HS)].
      destruct (Nat.ltb _ 3) eqn:CW; [exact (GE _ DN HS)|]. apply Nat.ltb_ge in CW.
      destruct (first_index _ (fst w)) as [m|] eqn:LI; [|discriminate].
      apply (f_equal fst) in HS. cbn [fst] in HS. rewrite <- HS in HC. cbn [line_cache horizontal] in HC. rewrite ST in HC by exact DN.
      assert (HV := f_equal (fun o => match o with Some u => u | None => v end) HC). cbn iota beta in HV. rewrite <- HV. cbn [fst]. clear HC HV HS.
      destruct (first_index_split _ _ _ LI) as (l1 & y & l2 & E & <- & Hy & H2). rewrite E in *.
      assert (F2 : filter (horizontal_end_test t1 t2) l1 = []).
      { clear - H2. induction H2 as [|z l H _ IH]; [reflexivity|]. cbn [filter]. unfold horizontal_end_test at 1. cbn [coord_of] in H. rewrite H. exact IH. }
      unfold count_where in CW. rewrite filter_app, F2 in CW. cbn [app] in CW.
      pose proof (filter_le (horizontal_end_test t1 t2) (y :: l2)) as FL.
      rewrite skipn_app, skipn_all, Nat.sub_diag. cbn [app skipn]. lia.
  Qed.
End Length.

(** ** Which results a cell's estimate adds *)
Lemma loop_lookup {LS} (line : Z -> cplx -> cplx -> LS -> LS * list cplx * res cplx) debug es : forall phi c s a b v,
  ec_lookup 0 a b (fst (fst (fst (moment_loop line debug 0 es phi (c, s))))) = Some v ->
  ec_lookup 0 a b c <> None \/ exists e, In e es /\ ((ceq a (fst e) /\ ceq b (snd e)) \/ (ceq a (snd e) /\ ceq b (fst e))).
Proof.
  induction es as [|[p q] es IH]; intros phi c s a b v H.
  - left. cbn in H. rewrite H. discriminate.
  - cbn [moment_loop fst snd] in H. destruct (ec_retrieve debug 0 p q c) as [c1 entry] eqn:R.
    assert (L1 : forall a b, ec_lookup 0 a b c1 = ec_lookup 0 a b c).
    { intros a' b'. change c1 with (fst (c1, entry)). rewrite <- R. apply lookup_retrieve. }
    assert (LIFT : (ec_lookup 0 a b c1 <> None \/ exists e, In e es /\ ((ceq a (fst e) /\ ceq b (snd e)) \/ (ceq a (snd e) /\ ceq b (fst e)))) ->
      ec_lookup 0 a b c <> None \/ exists e, In e ((p, q) :: es) /\ ((ceq a (fst e) /\ ceq b (snd e)) \/ (ceq a (snd e) /\ ceq b (fst e)))).
    { rewrite L1. intros [X|(e & X & Y)]; [left; exact X|right; exists e; split; [right; exact X|exact Y]]. }
    destruct (truthy entry); [exact (LIFT (IH _ _ _ _ _ _ H))|].
    destruct (line 0%Z p q s) as [[ls zs] [d|e]].
    + match type of H with context [moment_loop line debug 0 es ?p' (?c', ls)] =>
        specialize (IH p' c' ls a b v); destruct (moment_loop line debug 0 es p' (c', ls)) as [[s2 zs2] r2] end.
      cbn [fst] in H. destruct (IH H) as [X|X]; [|apply LIFT; right; exact X].
      rewrite !lookup_store in X.
      destruct (same_key 0 0 a q b p) eqn:S1.
      { apply same_key_true in S1. right. exists (p, q). split; [left; reflexivity|]. cbn [fst snd]. tauto. }
      destruct (same_key 0 0 a p b q) eqn:S2.
      { apply same_key_true in S2. right. exists (p, q). split; [left; reflexivity|]. cbn [fst snd]. tauto. }
      apply LIFT. left. exact X.
    + cbn [fst] in H. apply LIFT. left. rewrite H. discriminate.
Qed.
