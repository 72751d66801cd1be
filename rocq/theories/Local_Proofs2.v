From Coq Require Import Reals Qreals.
From Verif Require Import PyBase Rounding_Model Poly_Model Refine_Model Refine_Spec Refine_Proofs Refine_Proofs2
  Cache_Model Sum_Model Sum_Spec Quad_Model Whole_Model Qsearch_Model Local_Spec Local_Proofs.
From Coq Require Import Lqa.
Open Scope Z_scope.

(** ** Quadrature *)
Section QuadLocal.
  Variable free : Prop.
  Variable r0 : rect.
  Notation seen := (seen free r0).
  Variables fz gz : cplx -> bool.
  Variables fi gi : cplx -> R * R.
  Variable romb : list R -> R -> R.
  Variable small : R -> bool.
  Variable precision : Z * Z.
  Hypothesis same_zero : forall z, seen z -> fz z = gz z.
  Hypothesis same_int : forall z, seen z -> fi z = gi z.

  Lemma map_local zs : Forall seen zs -> map fi zs = map gi zs.
  Proof.
    induction 1 as [|z zs Hz _ IH]; [reflexivity|]. cbn. rewrite (same_int z Hz), IH. reflexivity.
  Qed.

  Lemma linspace_length (a b : cplx) n : List.length (linspaceC a b n) = n.
  Proof.
    destruct n as [|[|n]]; [reflexivity|reflexivity|]. cbn [linspaceC List.length].
    rewrite app_length, map_length, seq_length. cbn [List.length]. lia.
  Qed.

  Lemma shift_loop_length p s fuel : forall zs z found, shift_loop p s fuel zs = Some (z, found) ->
    List.length z = List.length zs.
  Proof.
    induction fuel as [|n IH]; intros zs z found; cbn [shift_loop]; [discriminate|].
    destruct (filter p zs); [intros [= <- <-]; reflexivity|].
    destruct (shift_loop p s n (translate s zs)) as [[z' f']|] eqn:L; [|discriminate].
    intros [= <- <-]. apply IH in L. unfold translate in L. rewrite map_length in L. exact L.
  Qed.

  Lemma genFuncArr_length p fuel a b n z found : genFuncArr p precision fuel a b n = Some (z, found) ->
    List.length z = n.
  Proof. unfold genFuncArr. intro H. apply shift_loop_length in H. rewrite H. apply linspace_length. Qed.

  Lemma seen_midpoint a b : seen a -> seen b -> seen (midpoint a b).
  Proof.
    intros [[A1 A2] A3] [[B1 B2] B3]. unfold midpoint. split; cbn [re im fst snd].
    - split; (apply Qle_shift_div_l; [reflexivity|lra]).
    - destruct A3 as [F|[A3 A4]]; [left; exact F|]. destruct B3 as [F|[B3 B4]]; [left; exact F|].
      right. split; (apply Qle_shift_div_r; [reflexivity|lra]).
  Qed.

  Lemma interleave_in {B} (old new l : list B) x : interleave old new = Some l -> In x l -> In x old \/ In x new.
  Proof.
    revert new l. induction old as [|a old IH]; intros [|b new] l; cbn; try discriminate.
    - intros [= <-] [].
    - destruct (interleave old new) as [m|] eqn:I; [|discriminate]. cbn. intros [= <-] [->|[->|H]]; auto.
      destruct (IH _ _ I H); auto.
  Qed.

  Lemma interleave_length {B} (old new l : list B) : interleave old new = Some l ->
    List.length l = (2 * List.length old)%nat.
  Proof.
    revert new l. induction old as [|a old IH]; intros [|b new] l; cbn; try discriminate.
    - intros [= <-]. reflexivity.
    - destruct (interleave old new) as [m|] eqn:I; [|discriminate]. cbn. intros [= <-]. cbn.
      rewrite (IH _ _ I). lia.
  Qed.

  Lemma removelast_length {B} (l : list B) : List.length (removelast l) = pred (List.length l).
  Proof.
    induction l as [|a l IH]; [reflexivity|]. destruct l as [|b l]; [reflexivity|].
    change (removelast (a :: b :: l)) with (a :: removelast (b :: l)). cbn [List.length pred] in *. rewrite IH. reflexivity.
  Qed.

  Lemma merge_seen old new l : mergeArray old new = Some l -> Forall seen old -> Forall seen new ->
    Forall seen l /\ ((2 <= List.length old)%nat -> (2 <= List.length l)%nat).
  Proof.
    unfold mergeArray. destruct (rev old) as [|z o] eqn:Rv; [discriminate|].
    destruct (interleave (removelast old) new) as [m|] eqn:I; [|discriminate]. cbn. intros [= <-] Ho Hn.
    rewrite Forall_forall in Ho, Hn. split.
    - apply Forall_forall. intros x Hx. apply in_app_or in Hx. destruct Hx as [Hx|[<-|[]]].
      + destruct (interleave_in _ _ _ _ I Hx) as [K|K]; [apply Ho, In_removelast, K|apply Hn, K].
      + apply Ho. apply in_rev. rewrite Rv. left; reflexivity.
    - intro L. apply interleave_length in I. rewrite removelast_length in I.
      rewrite app_length. cbn [List.length]. lia.
  Qed.

  Definition quad_found (x : quad_run) : option (list cplx) :=
    match x with QuadDone _ s => Some (q_found s) | _ => None end.

  Lemma quad_loop_found d fuel : forall s c s',
    quad_loop fz fi romb small precision d fuel s = QuadDone c s' -> exists more, q_found s' = q_found s ++ more.
  Proof.
    induction fuel as [|n IH]; intros s c s'; cbn [quad_loop].
    - destruct (Nat.leb _ _); [discriminate|]. intros [= <- <-]. exists []. rewrite app_nil_r. reflexivity.
    - destruct (Nat.leb (samplePts s) MAX_SAMPLE_POINTS).
      2:{ intros [= <- <-]. exists []. rewrite app_nil_r. reflexivity. }
      destruct (Nat.leb (EXP_SAMPLE_POINTS + 2) (samplePts s)).
      + destruct (genFuncArr _ _ _ _ _ _) as [[newZ found]|]; [|discriminate].
        destruct (mergeArray (q_z s) newZ) as [zArr|]; [|discriminate].
        destruct (mergeArray (q_func s) _) as [func|]; [|discriminate].
        destruct (small _ && small _).
        * intros [= <- <-]. exists found. reflexivity.
        * intro H. apply IH in H. cbn [q_found] in H. destruct H as [more ->]. exists (found ++ more).
          rewrite app_assoc. reflexivity.
      + destruct (genFuncArr _ _ _ _ _ _) as [[newZ found]|]; [|discriminate].
        destruct (small _ && small _).
        * intros [= <- <-]. exists found. reflexivity.
        * intro H. apply IH in H. cbn [q_found] in H. destruct H as [more ->]. exists (found ++ more).
          rewrite app_assoc. reflexivity.
  Qed.

  Lemma quad_loop_local d fuel : forall s, Forall seen (q_z s) -> (2 <= List.length (q_z s))%nat ->
    seen (q_start s) -> seen (q_end s) ->
    usable free quad_found (quad_loop fz fi romb small precision d fuel s) ->
    quad_loop gz gi romb small precision d fuel s = quad_loop fz fi romb small precision d fuel s.
  Proof.
    induction fuel as [|n IH]; intros s Hz Hl Hs He; cbn [quad_loop]; [reflexivity|].
    destruct (Nat.leb (samplePts s) MAX_SAMPLE_POINTS); [|reflexivity].
    assert (N : forall i, (i < List.length (q_z s))%nat -> seen (nth i (q_z s) (0, 0)%Q)).
    { intros i Hi. rewrite Forall_forall in Hz. apply Hz, nth_In, Hi. }
    destruct (Nat.leb (EXP_SAMPLE_POINTS + 2) (samplePts s)).
    - assert (M1 : seen (midpoint (nth 0 (q_z s) (0, 0)%Q) (nth 1 (q_z s) (0, 0)%Q)))
        by (apply seen_midpoint; apply N; lia).
      assert (M2 : seen (midpoint (nth (List.length (q_z s) - 1) (q_z s) (0, 0)%Q) (nth (List.length (q_z s) - 2) (q_z s) (0, 0)%Q)))
        by (apply seen_midpoint; apply N; lia).
      pose proof (genFuncArr_local free r0 fz gz same_zero precision n _ _ (2 ^ samplePts s) M1 M2) as G.
      destruct (genFuncArr fz precision n _ _ _) as [[newZ found]|] eqn:GF.
      2:{ intros [Fr|C]; [|discriminate]. rewrite (G Fr). reflexivity. }
      destruct (mergeArray (q_z s) newZ) as [zArr|] eqn:MZ.
      + destruct (mergeArray (q_func s) (map fi newZ)) as [func|] eqn:MF.
        * intro U.
          assert (W : free \/ found = []).
          { destruct U as [U|U]; [left; exact U|right].
            destruct (small _ && small _).
            - cbn in U. injection U as U. apply app_eq_nil in U. tauto.
            - destruct (quad_loop fz fi romb small precision d n _) as [c s'| |] eqn:QL; try discriminate.
              apply quad_loop_found in QL. destruct QL as [more QL]. cbn [quad_found] in U. injection U as U.
              rewrite U in QL. cbn [q_found] in QL. symmetry in QL. apply app_eq_nil in QL. destruct QL as [QL _].
              apply app_eq_nil in QL. tauto. }
          destruct (G W) as [-> Hn]. rewrite <- (map_local newZ Hn), MZ, MF.
          destruct (merge_seen _ _ _ MZ Hz Hn) as [Hm Lm].
          destruct (small _ && small _); [reflexivity|].
          apply IH; cbn [q_z q_start q_end]; auto.
        * intros [Fr|C]; [|discriminate]. destruct (G (or_introl Fr)) as [-> Hn].
          rewrite <- (map_local newZ Hn), MZ, MF. reflexivity.
      + intros [Fr|C]; [|discriminate]. destruct (G (or_introl Fr)) as [-> Hn]. rewrite MZ. reflexivity.
    - pose proof (genFuncArr_local free r0 fz gz same_zero precision n _ _ (2 ^ S (samplePts s) + 1) Hs He) as G.
      destruct (genFuncArr fz precision n _ _ _) as [[newZ found]|] eqn:GF.
      2:{ intros [Fr|C]; [|discriminate]. rewrite (G Fr). reflexivity. }
      intro U.
      assert (W : free \/ found = []).
      { destruct U as [U|U]; [left; exact U|right].
        destruct (small _ && small _).
        - cbn in U. injection U as U. apply app_eq_nil in U. tauto.
        - destruct (quad_loop fz fi romb small precision d n _) as [c s'| |] eqn:QL; try discriminate.
          apply quad_loop_found in QL. destruct QL as [more QL]. cbn [quad_found] in U. injection U as U.
          rewrite U in QL. cbn [q_found] in QL. symmetry in QL. apply app_eq_nil in QL. destruct QL as [QL _].
          apply app_eq_nil in QL. tauto. }
      destruct (G W) as [-> Hn]. rewrite <- (map_local newZ Hn).
      destruct (small _ && small _); [reflexivity|].
      apply IH; cbn [q_z q_start q_end]; auto.
      apply genFuncArr_length in GF. rewrite GF.
      pose proof (Nat.pow_nonzero 2 (S (samplePts s)) ltac:(discriminate)) as P. clear - P. lia.
  Qed.

  Lemma quad_iterate_local d fuel a b : seen a -> seen b ->
    usable free quad_found (quad_iterate fz fi romb small precision d fuel a b) ->
    quad_iterate gz gi romb small precision d fuel a b = quad_iterate fz fi romb small precision d fuel a b.
  Proof.
    intros Ha Hb. unfold quad_iterate, quad_init.
    pose proof (genFuncArr_local free r0 fz gz same_zero precision fuel a b (2 ^ EXP_SAMPLE_POINTS + 1) Ha Hb) as G.
    destruct (genFuncArr fz precision fuel a b _) as [[zArr found]|] eqn:GF.
    2:{ intros [Fr|C]; [|discriminate]. rewrite (G Fr). reflexivity. }
    cbv zeta. intro U.
    assert (W : free \/ found = []).
    { destruct U as [U|U]; [left; exact U|right].
      destruct (quad_loop fz fi romb small precision d fuel _) as [c s'| |] eqn:QL; try discriminate.
      apply quad_loop_found in QL. destruct QL as [more QL]. cbn [quad_found] in U. injection U as U.
      rewrite U in QL. cbn [q_found] in QL. symmetry in QL. apply app_eq_nil in QL. tauto. }
    destruct (G W) as [-> Hn]. rewrite <- (map_local zArr Hn).
    apply quad_loop_local; cbn [q_z q_start q_end]; auto.
    apply genFuncArr_length in GF. rewrite GF.
    pose proof (Nat.pow_nonzero 2 EXP_SAMPLE_POINTS ltac:(discriminate)) as P. clear - P. lia.
  Qed.
End QuadLocal.

(** ** Line methods *)
Section Lines.
  Variable free : Prop.
  Variable r0 : rect.
  Notation seen := (seen free r0).

  Definition good_answer {LS} (x : LS * list cplx * res cplx) : Prop :=
    free \/ (snd (fst x) = [] /\ exists v, snd x = Ok v).

  (** [line'] answers as [line] whenever [line] answers without a zero on a sample point. *)
  Definition follows {LS} (line line' : Z -> cplx -> cplx -> LS -> LS * list cplx * res cplx) : Prop :=
    forall k a b s, seen a -> seen b -> good_answer (line k a b s) -> line' k a b s = line k a b s.

  Lemma turn_line_local turns (f g : cplx -> cR) deltaPhi maxPrecision numPts precision fuel :
    (forall z, seen z -> f z = g z) ->
    follows (turn_line turns f deltaPhi maxPrecision numPts precision fuel)
            (turn_line turns g deltaPhi maxPrecision numPts precision fuel).
  Proof.
    intros Hfg k a b s Ha Hb U. unfold turn_line in *. unfold sum_line in *.
    rewrite (sumLine_local free r0 0%R Rplus Ropp (vanishes f) (vanishes g) (phase_step f) (phase_step g)); try assumption.
    - reflexivity.
    - intros z Hz. unfold vanishes. rewrite (Hfg z Hz). reflexivity.
    - intros z z' Hz Hz'. unfold phase_step. rewrite (Hfg z Hz), (Hfg z' Hz'). reflexivity.
    - destruct U as [U|U]; [left; exact U|right].
      destruct (sumLine 0%R Rplus Ropp (vanishes f) _ _ _ _ _ _ _ _ _ _ _) as [st' [found p|e|]]; cbn in *.
      + destruct U as [-> _]. reflexivity.
      + destruct U as [_ [v C]]. discriminate.
      + destruct U as [_ [v C]]. discriminate.
  Qed.

  Lemma quad_turn_line_local turns romb (f g : cplx -> R * R) df dg precision fuel :
    (forall z, seen z -> f z = g z) -> both (fun a b => forall z, seen z -> a z = b z) df dg ->
    follows (quad_turn_line turns romb f df precision fuel) (quad_turn_line turns romb g dg precision fuel).
  Proof.
    intros Hfg Hd k a b s Ha Hb U. unfold quad_turn_line, quad_line in *.
    destruct df as [df|], dg as [dg|]; cbn [both] in Hd; try contradiction; [|reflexivity].
    rewrite (quad_iterate_local free r0 (fun z => is_zero_R (f z)) (fun z => is_zero_R (g z))
      (integrand f df (Z.to_nat k)) (integrand g dg (Z.to_nat k))); try assumption.
    - reflexivity.
    - intros z Hz. rewrite (Hfg z Hz). reflexivity.
    - intros z Hz. unfold integrand. rewrite (Hfg z Hz), (Hd z Hz). reflexivity.
    - destruct U as [U|U]; [left; exact U|right].
      cbv zeta in U.
      destruct (quad_iterate (fun z => is_zero_R (f z)) _ _ _ _ _ _ _ _) as [c s'|e|]; cbn [quad_found fst snd] in *.
      + destruct U as [-> _]. reflexivity.
      + destruct U as [_ [v C]]. discriminate.
      + destruct U as [_ [v C]]. discriminate.
  Qed.

  Section Rectangles.
    Context {LS : Type} (line line' : Z -> cplx -> cplx -> LS -> LS * list cplx * res cplx) (debug : bool).
    Hypothesis F : follows line line'.

    Lemma moment_loop_local order es : Forall (fun e => seen (fst e) /\ seen (snd e)) es -> forall phi st,
      good_answer (moment_loop line debug order es phi st) ->
      moment_loop line' debug order es phi st = moment_loop line debug order es phi st.
    Proof.
      induction 1 as [|[a b] es [Ha Hb] _ IH]; intros phi st; cbn [moment_loop]; [reflexivity|].
      destruct (ec_retrieve debug order a b (fst st)) as [c1 entry].
      destruct (truthy entry); [apply IH|].
      pose proof (F order a b (snd st) Ha Hb) as L. cbn [fst snd] in *.
      destruct (line order a b (snd st)) as [[ls zs] [v|e]] eqn:EL.
      - destruct (moment_loop line debug order es (cadd phi v) _) as [[st' zs'] m] eqn:ML.
        intro U.
        assert (U1 : good_answer (ls, zs, Ok v)).
        { destruct U as [U|[U _]]; [left; exact U|right]. cbn in *. apply app_eq_nil in U. split; [tauto|]. exists v. reflexivity. }
        rewrite (L U1). rewrite IH; rewrite ML; [reflexivity|].
        destruct U as [U|[U1' U2]]; [left; exact U|right]. cbn in *. apply app_eq_nil in U1'. tauto.
      - intro U. rewrite (L U). reflexivity.
    Qed.

    Lemma moment_local order q st : proper q -> sub_rect q r0 ->
      good_answer (cached_moment line debug order q st) ->
      cached_moment line' debug order q st = cached_moment line debug order q st.
    Proof.
      intros [P1 P2] (H1 & H2 & H3 & H4). unfold cached_moment. apply moment_loop_local.
      assert (C : forall x y, (x1 q <= x -> x <= x2 q -> y1 q <= y -> y <= y2 q -> seen (x, y))%Q).
      { intros x y A1 A2 A3 A4. split; cbn [re im fst snd]; [lra|right; lra]. }
      unfold edges. apply Forall_forall. intros e He. cbn [In] in He.
      destruct He as [<-|[<-|[<-|[<-|[]]]]]; cbn [fst snd]; split; apply C; lra.
    Qed.
  End Rectangles.
End Lines.
