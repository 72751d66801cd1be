From Coq Require Import Reals Qreals.
From Verif Require Import PyBase Refine_Model Refine_Spec Cache_Model Sum_Model Sum_Spec Quad_Model Whole_Model Qsearch_Model
  Raise_Model Raise_Spec.
Open Scope Z_scope.

Lemma beginning_refl {A} (l : list A) : beginning l l.
Proof. exists []. symmetry. apply app_nil_r. Qed.
Lemma beginning_nil {A} (l : list A) : beginning [] l.
Proof. exists l. reflexivity. Qed.
Lemma beginning_app {A} (l a b : list A) : beginning a b -> beginning (l ++ a) (l ++ b).
Proof. intros [x ->]. exists x. apply app_assoc. Qed.
Lemma beginning_more {A} (a b c : list A) : beginning a b -> beginning a (b ++ c).
Proof. intros [x ->]. exists (x ++ c). symmetry. apply app_assoc. Qed.
Lemma beginning_trans {A} (a b c : list A) : beginning a b -> beginning b c -> beginning a c.
Proof. intros [x ->] H. destruct H as [y ->]. exists (x ++ y). symmetry. apply app_assoc. Qed.
Lemma beginning_map {A B} (h : A -> B) (a b : list A) : beginning a b -> beginning (map h a) (map h b).
Proof. intros [x ->]. exists (map h x). apply map_app. Qed.

(** ** Sample lines *)
Section Shift.
  Variable own : exn -> Prop.
  Variable raises : list cplx -> option exn.
  Hypothesis told : only_raises own raises.
  Variable f_zero : cplx -> bool.

  Lemma shift_cut s fuel : forall zs,
    raising_shift_loop raises f_zero s fuel zs = Returns (shift_loop f_zero s fuel zs) \/
    exists found e, raising_shift_loop raises f_zero s fuel zs = Fails found e /\ own e /\
      forall z all, shift_loop f_zero s fuel zs = Some (z, all) -> beginning found all.
  Proof.
    induction fuel as [|n IH]; intro zs; cbn [raising_shift_loop shift_loop]; [left; reflexivity|].
    destruct (raises zs) as [e|] eqn:R.
    - right. exists [], e. split; [reflexivity|]. split; [apply (told zs), R|]. intros. apply beginning_nil.
    - destruct (filter f_zero zs) as [|z0 zeros]; [left; reflexivity|].
      destruct (IH (translate s zs)) as [H|(found & e & H & O & B)]; rewrite H.
      + left. destruct (shift_loop f_zero s n (translate s zs)) as [[z found]|]; reflexivity.
      + right. exists ((z0 :: zeros) ++ found), e. split; [reflexivity|]. split; [exact O|].
        intros z all. destruct (shift_loop f_zero s n (translate s zs)) as [[z' found']|]; [|discriminate].
        intro U. injection U as <- <-. apply (beginning_app (z0 :: zeros)), (B z'). reflexivity.
  Qed.

  Lemma samples_cut precision fuel a b size :
    raising_genFuncArr raises f_zero precision fuel a b size = Returns (genFuncArr f_zero precision fuel a b size) \/
    exists found e, raising_genFuncArr raises f_zero precision fuel a b size = Fails found e /\ own e /\
      forall z all, genFuncArr f_zero precision fuel a b size = Some (z, all) -> beginning found all.
  Proof. apply shift_cut. Qed.

  Section Sum.
    Context {A : Type} (azero : A) (aadd : A -> A -> A) (aopp : A -> A).
    Variable dphase : cplx -> cplx -> A.
    Variable large : A -> bool.
    Variable factor : nat -> A -> nat.
    Variable close : cplx -> cplx -> bool.
    Variable numPts : nat.
    Variable precision : Z * Z.

    Local Notation phi' := (raising_phi_loop azero raises f_zero dphase large factor close numPts precision).
    Local Notation phi := (phi_loop azero f_zero dphase large factor close numPts precision).
    Local Notation gen' := (raising_genPhiArr azero raises f_zero dphase large factor close numPts precision).
    Local Notation gen0 := (genPhiArr azero f_zero dphase large factor close numPts precision).

    Lemma phi_grows fuel : forall idx zs phis zeros zs1 phis1 zeros1,
      phi fuel idx zs phis zeros = Gen zs1 phis1 zeros1 -> beginning zeros zeros1.
    Proof.
      induction fuel as [|n IH]; intros idx zs phis zeros zs1 phis1 zeros1; cbn [phi_loop].
      - destruct (first_index large phis); [discriminate|]. intro U. injection U as _ _ <-. apply beginning_refl.
      - destruct (first_index large phis) as [k|]; [|intro U; injection U as _ _ <-; apply beginning_refl].
        cbv zeta. destruct (close _ _); [intro U; injection U as _ _ <-; apply beginning_refl|].
        destruct (Nat.ltb _ _); [intro U; injection U as _ _ <-; apply beginning_refl|].
        destruct (genFuncArr _ _ _ _ _ _) as [[zRef found]|]; [|discriminate].
        intro U. apply IH in U. apply (beginning_trans zeros (zeros ++ found)); [exists found; reflexivity|exact U].
    Qed.

    Lemma phi_cut fuel : forall idx zs phis zeros,
      phi' fuel idx zs phis zeros = Returns (phi fuel idx zs phis zeros) \/
      exists found e, phi' fuel idx zs phis zeros = Fails found e /\ own e /\
        forall zs1 phis1 zeros1, phi fuel idx zs phis zeros = Gen zs1 phis1 zeros1 -> beginning found zeros1.
    Proof.
      induction fuel as [|n IH]; intros idx zs phis zeros; cbn [raising_phi_loop phi_loop].
      - destruct (first_index large phis); left; reflexivity.
      - destruct (first_index large phis) as [k|]; [|left; reflexivity].
        cbv zeta. destruct (close _ _); [left; reflexivity|]. destruct (Nat.ltb _ _); [left; reflexivity|].
        destruct (samples_cut precision n (nth k zs (0, 0)%Q) (nth (S k) zs (0, 0)%Q) (factor (S idx) (nth k phis azero)))
          as [H|(found & e & H & O & B)]; rewrite H.
        + destruct (genFuncArr _ _ _ _ _ _) as [[zRef found]|]; [apply IH|left; reflexivity].
        + right. exists (zeros ++ found), e. split; [reflexivity|]. split; [exact O|].
          intros zs1 phis1 zeros1. destruct (genFuncArr _ _ _ _ _ _) as [[zRef found']|]; [|discriminate].
          intro U. apply phi_grows in U. apply (beginning_trans _ (zeros ++ found')); [|exact U].
          apply beginning_app, (B zRef). reflexivity.
    Qed.

    Lemma gen_cut fuel order a b :
      gen' fuel order a b = Returns (gen0 fuel order a b) \/
      exists found e, gen' fuel order a b = Fails found e /\ own e /\
        forall zs1 phis1 zeros1, gen0 fuel order a b = Gen zs1 phis1 zeros1 -> beginning found zeros1.
    Proof.
      unfold raising_genPhiArr, genPhiArr. destruct (order =? 0); [|left; reflexivity].
      destruct (samples_cut precision fuel a b numPts) as [H|(found & e & H & O & B)]; rewrite H.
      - destruct (genFuncArr _ _ _ _ _ _) as [[zs found]|]; [apply phi_cut|left; reflexivity].
      - right. exists found, e. split; [reflexivity|]. split; [exact O|].
        intros zs1 phis1 zeros1. destruct (genFuncArr _ _ _ _ _ _) as [[zs found']|]; [|discriminate].
        intro U. apply phi_grows in U. apply (beginning_trans _ found'); [apply (B zs); reflexivity|exact U].
    Qed.

    Local Notation ret' := (raising_retrieveCached azero aadd aopp raises f_zero dphase large factor close numPts precision).
    Local Notation ret0 := (retrieveCached azero aadd aopp f_zero dphase large factor close numPts precision).

    Lemma retrieve_cut end_test coord point level fuel order t1 t2 c :
      ret' end_test coord point level fuel order t1 t2 c = Returns (ret0 end_test coord point level fuel order t1 t2 c) \/
      exists found e, ret' end_test coord point level fuel order t1 t2 c = Fails found e /\ own e /\
        forall c1 zeros p, ret0 end_test coord point level fuel order t1 t2 c = LineOk c1 zeros p -> beginning found zeros.
    Proof.
      unfold raising_retrieveCached, retrieveCached. cbv zeta.
      set (a := point (if Qle_bool t1 t2 then t1 else t2)). set (b := point (if Qle_bool t1 t2 then t2 else t1)).
      pose proof (gen_cut fuel order a b) as G.
      destruct (dget okey_eqb (level, order) c) as [d|].
      2:{ destruct G as [G|(found & e & G & O & B)]; rewrite G.
          - left. destruct (gen0 fuel order a b); reflexivity.
          - right. exists found, e. split; [reflexivity|]. split; [exact O|]. intros c1 zeros p.
            destruct (gen0 fuel order a b) as [zs phis fo| |]; try discriminate. intro U. injection U as _ <- _. apply (B zs phis). reflexivity. }
      destruct (dget skey_eqb (_, StartSide) d) as [v|].
      - destruct (Nat.ltb _ 3); [|left; destruct (last_index _ _); reflexivity].
        destruct G as [G|(found & e & G & O & B)]; rewrite G.
        + left. destruct (gen0 fuel order a b); reflexivity.
        + right. exists found, e. split; [reflexivity|]. split; [exact O|]. intros c1 zeros p.
          destruct (gen0 fuel order a b) as [zs phis fo| |]; try discriminate. intro U. injection U as _ <- _. apply (B zs phis). reflexivity.
      - destruct (dget skey_eqb (_, EndSide) d) as [v|].
        + destruct (Nat.ltb _ 3); [|left; destruct (first_index _ _); reflexivity].
          destruct G as [G|(found & e & G & O & B)]; rewrite G.
          * left. destruct (gen0 fuel order a b); reflexivity.
          * right. exists found, e. split; [reflexivity|]. split; [exact O|]. intros c1 zeros p.
            destruct (gen0 fuel order a b) as [zs phis fo| |]; try discriminate. intro U. injection U as _ <- _. apply (B zs phis). reflexivity.
        + destruct G as [G|(found & e & G & O & B)]; rewrite G.
          * left. destruct (gen0 fuel order a b); reflexivity.
          * right. exists found, e. split; [reflexivity|]. split; [exact O|]. intros c1 zeros p.
            destruct (gen0 fuel order a b) as [zs phis fo| |]; try discriminate. intro U. injection U as _ <- _. apply (B zs phis). reflexivity.
    Qed.

    Lemma sumLine_cut fuel order a b st :
      let x := raising_sumLine azero aadd aopp raises f_zero dphase large factor close numPts precision fuel order a b st in
      let y := sumLine azero aadd aopp f_zero dphase large factor close numPts precision fuel order a b st in
      x = (fst y, Returns (snd y)) \/
      exists found e, x = (st, Fails found e) /\ own e /\ forall zeros p, snd y = SumOk zeros p -> beginning found zeros.
    Proof.
      cbv zeta. unfold raising_sumLine, sumLine. destruct (Qeq_bool (im a) (im b)).
      - destruct (retrieve_cut horizontal_end_test re (fun t => (t, im a)) (im a) fuel order (re a) (re b) (horizontal st))
          as [H|(found & e & H & O & B)]; rewrite H.
        + left. destruct (ret0 _ _ _ _ _ _ _ _ _); reflexivity.
        + right. exists found, e. split; [reflexivity|]. split; [exact O|]. intros zeros p.
          destruct (ret0 _ _ _ _ _ _ _ _ _) as [c1 z1 p1| |]; try discriminate. intro U. injection U as <- _. apply (B c1 z1 p1). reflexivity.
      - destruct (Qeq_bool (re a) (re b)); [|left; reflexivity].
        destruct (retrieve_cut vertical_end_test im (fun t => (re a, t)) (re a) fuel order (im a) (im b) (vertical st))
          as [H|(found & e & H & O & B)]; rewrite H.
        + left. destruct (ret0 _ _ _ _ _ _ _ _ _); reflexivity.
        + right. exists found, e. split; [reflexivity|]. split; [exact O|]. intros zeros p.
          destruct (ret0 _ _ _ _ _ _ _ _ _) as [c1 z1 p1| |]; try discriminate. intro U. injection U as <- _. apply (B c1 z1 p1). reflexivity.
    Qed.
  End Sum.
End Shift.

(** ** Lines of the two estimators *)
Definition cut_line (own : exn -> Prop) {LS : Type} (line line' : Z -> cplx -> cplx -> LS -> LS * list cplx * res cplx) : Prop :=
  forall k a b s, line' k a b s = line k a b s \/
    exists found e, line' k a b s = (s, found, Err e) /\ own e /\
      forall s2 all v, line k a b s = (s2, all, Ok v) -> beginning found all.

Lemma turn_line_cut own raises turns f deltaPhi maxPrecision numPts precision fuel :
  only_raises own raises ->
  cut_line own (turn_line turns f deltaPhi maxPrecision numPts precision fuel)
    (raising_turn_line turns f raises deltaPhi maxPrecision numPts precision fuel).
Proof.
  intros told k a b s. unfold raising_turn_line, turn_line, sum_line.
  destruct (sumLine_cut own raises told (vanishes f) 0%R Rplus Ropp (phase_step f) (at_least deltaPhi) (refinement deltaPhi)
    (nearer maxPrecision) numPts precision fuel k a b s) as [H|(found & e & H & O & B)]; rewrite H.
  - left. destruct (sumLine _ _ _ _ _ _ _ _ _ _ _ _ _ _ _) as [st' [zs p| |]]; reflexivity.
  - right. exists found, e. split; [reflexivity|]. split; [exact O|]. intros s2 all v.
    destruct (sumLine _ _ _ _ _ _ _ _ _ _ _ _ _ _ _) as [st' [zs p| |]]; try discriminate.
    intro U. injection U as _ <- _. apply (B zs p). reflexivity.
Qed.

Section Quad.
  Variable own : exn -> Prop.
  Variables (raises raises_df : list cplx -> option exn).
  Hypothesis told : only_raises own raises.
  Hypothesis told_df : only_raises own raises_df.
  Variable f_zero : cplx -> bool.
  Variable g : cplx -> R * R.
  Variable romb : list R -> R -> R.
  Variable small : R -> bool.
  Variable precision : Z * Z.

  Lemma both_cut fuel a b size :
    raising_samples raises raises_df f_zero precision fuel a b size = Returns (genFuncArr f_zero precision fuel a b size) \/
    exists found e, raising_samples raises raises_df f_zero precision fuel a b size = Fails found e /\ own e /\
      forall z all, genFuncArr f_zero precision fuel a b size = Some (z, all) -> beginning found all.
  Proof.
    unfold raising_samples.
    destruct (samples_cut own raises told f_zero precision fuel a b size) as [H|(found & e & H & O & B)]; rewrite H.
    - destruct (genFuncArr _ _ _ _ _ _) as [[zs found]|]; [|left; reflexivity].
      destruct (raises_df zs) as [e|] eqn:D; [|left; reflexivity].
      right. exists found, e. split; [reflexivity|]. split; [apply (told_df zs), D|]. intros z all U. injection U as _ <-. apply beginning_refl.
    - right. exists found, e. auto.
  Qed.

  Local Notation loop' := (raising_quad_loop raises raises_df f_zero g romb small precision).
  Local Notation loop := (quad_loop f_zero g romb small precision).

  Ltac crack := repeat match goal with
    | |- context [match ?x with _ => _ end] => destruct x; try discriminate
    end.

  Lemma quad_grows d fuel : forall s c s1, loop d fuel s = QuadDone c s1 -> beginning (q_found s) (q_found s1).
  Proof.
    induction fuel as [|n IH]; intros s c s1; cbn [quad_loop].
    - destruct (Nat.leb (samplePts s) MAX_SAMPLE_POINTS); [discriminate|]. intro U. injection U as _ <-. apply beginning_refl.
    - destruct (Nat.leb (samplePts s) MAX_SAMPLE_POINTS); [|intro U; injection U as _ <-; apply beginning_refl].
      cbv zeta. destruct (Nat.leb _ (samplePts s)).
      + destruct (genFuncArr _ _ _ _ _ _) as [[zs found]|]; [|discriminate].
        destruct (mergeArray (q_z s) zs); [|discriminate]. destruct (mergeArray (q_func s) (map g zs)); [|discriminate].
        destruct (_ && _).
        * intro U. injection U as _ <-. cbn [q_found]. exists found. reflexivity.
        * intro U. apply IH in U. cbn [q_found] in U. apply (beginning_trans _ (q_found s ++ found)); [exists found; reflexivity|exact U].
      + destruct (genFuncArr _ _ _ _ _ _) as [[zs found]|]; [|discriminate].
        destruct (_ && _).
        * intro U. injection U as _ <-. cbn [q_found]. exists found. reflexivity.
        * intro U. apply IH in U. cbn [q_found] in U. apply (beginning_trans _ (q_found s ++ found)); [exists found; reflexivity|exact U].
  Qed.

  Lemma quad_cut d fuel : forall s,
    loop' d fuel s = Returns (loop d fuel s) \/
    exists found e, loop' d fuel s = Fails found e /\ own e /\
      forall c s1, loop d fuel s = QuadDone c s1 -> beginning found (q_found s1).
  Proof.
    induction fuel as [|n IH]; intro s; cbn [raising_quad_loop quad_loop].
    - destruct (Nat.leb (samplePts s) MAX_SAMPLE_POINTS); left; reflexivity.
    - destruct (Nat.leb (samplePts s) MAX_SAMPLE_POINTS); [|left; reflexivity].
      cbv zeta. destruct (Nat.leb _ (samplePts s)).
      + match goal with |- context [raising_samples raises raises_df f_zero precision n ?a ?b ?k] =>
          destruct (both_cut n a b k) as [H|(found & e & H & O & B)]; rewrite H end.
        * destruct (genFuncArr _ _ _ _ _ _) as [[zs found]|]; [|left; reflexivity].
          destruct (mergeArray (q_z s) zs); [|left; reflexivity]. destruct (mergeArray (q_func s) (map g zs)); [|left; reflexivity].
          destruct (_ && _); [left; reflexivity|apply IH].
        * right. exists (q_found s ++ found), e. split; [reflexivity|]. split; [exact O|]. intros c s1.
          destruct (genFuncArr _ _ _ _ _ _) as [[zs found']|]; [|discriminate].
          destruct (mergeArray (q_z s) zs); [|discriminate]. destruct (mergeArray (q_func s) (map g zs)); [|discriminate].
          assert (P : beginning (q_found s ++ found) (q_found s ++ found')) by (apply beginning_app, (B zs); reflexivity).
          destruct (_ && _).
          -- intro U. injection U as _ <-. exact P.
          -- intro U. apply quad_grows in U. apply (beginning_trans _ _ _ P U).
      + match goal with |- context [raising_samples raises raises_df f_zero precision n ?a ?b ?k] =>
          destruct (both_cut n a b k) as [H|(found & e & H & O & B)]; rewrite H end.
        * destruct (genFuncArr _ _ _ _ _ _) as [[zs found]|]; [|left; reflexivity].
          destruct (_ && _); [left; reflexivity|apply IH].
        * right. exists (q_found s ++ found), e. split; [reflexivity|]. split; [exact O|]. intros c s1.
          destruct (genFuncArr _ _ _ _ _ _) as [[zs found']|]; [|discriminate].
          assert (P : beginning (q_found s ++ found) (q_found s ++ found')) by (apply beginning_app, (B zs); reflexivity).
          destruct (_ && _).
          -- intro U. injection U as _ <-. exact P.
          -- intro U. apply quad_grows in U. apply (beginning_trans _ _ _ P U).
  Qed.

  Lemma iterate_cut d fuel a b :
    let x := raising_quad_iterate raises raises_df f_zero g romb small precision d fuel a b in
    let y := quad_iterate f_zero g romb small precision d fuel a b in
    x = Returns y \/
    exists found e, x = Fails found e /\ own e /\ forall c s1, y = QuadDone c s1 -> beginning found (q_found s1).
  Proof.
    cbv zeta. unfold raising_quad_iterate, quad_iterate, raising_quad_init, quad_init.
    match goal with |- context [raising_samples raises raises_df f_zero precision ?n ?a ?b ?k] =>
      destruct (both_cut n a b k) as [H|(found & e & H & O & B)]; rewrite H end.
    - destruct (genFuncArr _ _ _ _ _ _) as [[zs found]|]; [apply quad_cut|left; reflexivity].
    - right. exists found, e. split; [reflexivity|]. split; [exact O|]. intros c s1.
      destruct (genFuncArr _ _ _ _ _ _) as [[zs found']|]; [|discriminate].
      intro U. apply quad_grows in U. apply (beginning_trans _ found'); [apply (B zs); reflexivity|exact U].
  Qed.
End Quad.

Lemma quad_line_cut own raises raises_df turns romb f df precision fuel :
  only_raises own raises -> only_raises own raises_df ->
  cut_line own (quad_turn_line turns romb f df precision fuel)
    (raising_quad_turn_line turns romb f df raises raises_df precision fuel).
Proof.
  intros told told_df k a b s. unfold raising_quad_turn_line, quad_turn_line, quad_line.
  destruct df as [df|]; [|left; reflexivity]. cbv zeta.
  destruct (iterate_cut own raises raises_df told told_df (fun z => is_zero_R (f z)) (integrand f df (Z.to_nat k)) romb
    below_thousandth precision (distance_of a b) fuel a b) as [H|(found & e & H & O & B)]; rewrite H.
  - left. destruct (quad_iterate _ _ _ _ _ _ _ _ _) as [c s1| |]; reflexivity.
  - right. exists found, e. split; [reflexivity|]. split; [exact O|]. intros s2 all v.
    destruct (quad_iterate _ _ _ _ _ _ _ _ _) as [c s1| |]; try discriminate.
    intro U. injection U as _ <- _. apply (B c s1). reflexivity.
Qed.
