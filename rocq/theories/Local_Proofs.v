From Coq Require Import Reals Qreals.
From Verif Require Import PyBase Rounding_Model Refine_Model Refine_Spec Refine_Proofs Refine_Proofs2
  Cache_Model Sum_Model Sum_Spec Quad_Model Whole_Model Qsearch_Model Local_Spec.
From Coq Require Import Lqa.
Open Scope Z_scope.

(** [free]: no restriction above and to the right (True), or the rectangle only (False). *)
Section Region.
  Variable free : Prop.
  Variable r0 : rect.

  Definition seen (z : cplx) : Prop :=
    ((x1 r0 <= re z /\ y1 r0 <= im z) /\ (free \/ (re z <= x2 r0 /\ im z <= y2 r0)))%Q.

  Lemma lin_low (a x y t : Q) : (a <= x -> a <= y -> 0 <= t -> t <= 1 -> a <= x + t * (y - x))%Q.
  Proof.
    intros Hx Hy H0 H1.
    assert (A : (0 <= t * (y - a))%Q) by (apply Qmult_le_0_compat; lra).
    assert (B : (0 <= (1 - t) * (x - a))%Q) by (apply Qmult_le_0_compat; lra).
    assert (C : (x + t * (y - x) == a + t * (y - a) + (1 - t) * (x - a))%Q) by ring.
    rewrite C. lra.
  Qed.
  Lemma lin_high (b x y t : Q) : (x <= b -> y <= b -> 0 <= t -> t <= 1 -> x + t * (y - x) <= b)%Q.
  Proof.
    intros Hx Hy H0 H1. pose proof (lin_low (- b) (- x) (- y) t ltac:(lra) ltac:(lra) H0 H1) as H.
    assert (C : (- x + t * (- y - - x) == - (x + t * (y - x)))%Q) by ring. rewrite C in H. lra.
  Qed.

  Lemma unit_range n i : (i <= S n)%nat ->
    (0 <= inject_Z (Z.of_nat i) / inject_Z (Z.of_nat (S n)))%Q /\
    (inject_Z (Z.of_nat i) / inject_Z (Z.of_nat (S n)) <= 1)%Q.
  Proof.
    intro H. assert (P : (0 < inject_Z (Z.of_nat (S n)))%Q) by (change 0%Q with (inject_Z 0); rewrite <- Zlt_Qlt; lia).
    split.
    - apply Qle_shift_div_l; [exact P|]. rewrite Qmult_0_l. change 0%Q with (inject_Z 0). rewrite <- Zle_Qle. lia.
    - apply Qle_shift_div_r; [exact P|]. rewrite Qmult_1_l. rewrite <- Zle_Qle. lia.
  Qed.

  Lemma seen_lin a b n i : seen a -> seen b -> (i <= S n)%nat -> seen (linpoint a b (S n) i).
  Proof.
    intros [[A1 A2] A3] [[B1 B2] B3] Hi. destruct (unit_range n i Hi) as [T0 T1].
    unfold linpoint, seen. cbn [re im fst snd].
    set (t := (inject_Z (Z.of_nat i) / inject_Z (Z.of_nat (S n)))%Q) in *.
    split; [split; apply lin_low; assumption|].
    destruct A3 as [F|[A3 A4]]; [left; exact F|]. destruct B3 as [F|[B3 B4]]; [left; exact F|].
    right. split; apply lin_high; assumption.
  Qed.

  Lemma seen_linspace a b n : seen a -> seen b -> Forall seen (linspaceC a b n).
  Proof.
    intros Ha Hb. destruct n as [|[|n]]; cbn [linspaceC]; [constructor|constructor; [exact Ha|constructor]|].
    constructor; [exact Ha|]. apply Forall_app. split; [|constructor; [exact Hb|constructor]].
    apply Forall_forall. intros z Hz. apply in_map_iff in Hz. destruct Hz as (i & <- & Hi).
    apply in_seq in Hi. apply seen_lin; [exact Ha|exact Hb|lia].
  Qed.

  Lemma shift_nonneg p a b : (0 <= re (line_shift p a b) /\ 0 <= im (line_shift p a b))%Q.
  Proof.
    unfold line_shift. pose proof (pow10_pos (- fst p)). pose proof (pow10_pos (- snd p)).
    destruct (Qeq_bool _ _); cbn [re im fst snd]; lra.
  Qed.

  Lemma seen_translate s zs : free -> (0 <= re s)%Q -> (0 <= im s)%Q -> Forall seen zs -> Forall seen (translate s zs).
  Proof.
    intros F H1 H2 H. unfold translate. apply Forall_forall. intros z Hz. apply in_map_iff in Hz.
    destruct Hz as (w & <- & Hw). rewrite Forall_forall in H. destruct (H w Hw) as [[A B] _].
    split; [|left; exact F]. cbn [re im fst snd]. unfold re, im in *. lra.
  Qed.

  Lemma filter_agree (p q : cplx -> bool) zs : (forall z, seen z -> p z = q z) -> Forall seen zs ->
    filter p zs = filter q zs.
  Proof.
    intros E H. induction H as [|z zs Hz _ IH]; [reflexivity|]. cbn. rewrite (E z Hz), IH. reflexivity.
  Qed.

  Section Samples.
    Variables fz gz : cplx -> bool.
    Hypothesis same_zero : forall z, seen z -> fz z = gz z.

    Lemma shift_loop_local s fuel : (0 <= re s)%Q -> (0 <= im s)%Q -> forall zs, Forall seen zs ->
      match shift_loop fz s fuel zs with
      | None => free -> shift_loop gz s fuel zs = None
      | Some (z, found) => free \/ found = [] -> shift_loop gz s fuel zs = Some (z, found) /\ Forall seen z
      end.
    Proof.
      intros H1 H2. induction fuel as [|n IH]; intros zs Hz; cbn [shift_loop]; [auto|].
      rewrite <- (filter_agree fz gz zs same_zero Hz).
      destruct (filter fz zs) as [|w ws] eqn:F; [auto|].
      destruct (shift_loop fz s n (translate s zs)) as [[z found]|] eqn:L.
      - intros [Fr|C]; [|discriminate].
        specialize (IH (translate s zs) (seen_translate s zs Fr H1 H2 Hz)). rewrite L in IH.
        destruct (IH (or_introl Fr)) as [-> Hs]. auto.
      - intro Fr. specialize (IH (translate s zs) (seen_translate s zs Fr H1 H2 Hz)). rewrite L in IH.
        rewrite (IH Fr). reflexivity.
    Qed.

    Lemma genFuncArr_local p fuel a b n : seen a -> seen b ->
      match genFuncArr fz p fuel a b n with
      | None => free -> genFuncArr gz p fuel a b n = None
      | Some (z, found) => free \/ found = [] -> genFuncArr gz p fuel a b n = Some (z, found) /\ Forall seen z
      end.
    Proof.
      intros Ha Hb. unfold genFuncArr. destruct (shift_nonneg p a b) as [S1 S2].
      apply shift_loop_local; [exact S1|exact S2|apply seen_linspace; assumption].
    Qed.
  End Samples.
End Region.

(** ** Phase summation *)
Section SumLocal.
  Variable free : Prop.
  Variable r0 : rect.
  Notation seen := (seen free r0).
  Context {A : Type} (azero : A) (aadd : A -> A -> A) (aopp : A -> A).
  Variables fz gz : cplx -> bool.
  Variables fd gd : cplx -> cplx -> A.
  Variable large : A -> bool.
  Variable factor : nat -> A -> nat.
  Variable close : cplx -> cplx -> bool.
  Variable numPts : nat.
  Variable precision : Z * Z.
  Hypothesis same_zero : forall z, seen z -> fz z = gz z.
  Hypothesis same_step : forall z z', seen z -> seen z' -> fd z z' = gd z z'.

  Lemma increments_local zs : Forall seen zs -> increments fd zs = increments gd zs.
  Proof.
    induction zs as [|z [|z' zs] IH]; intro H; [reflexivity|reflexivity|].
    inversion H as [|? ? Hz H']; subst. inversion H' as [|? ? Hz' _]; subst.
    cbn [increments] in *. rewrite (same_step z z' Hz Hz'), (IH H'). reflexivity.
  Qed.

  Lemma increments_length (d : cplx -> cplx -> A) zs : List.length (increments d zs) = pred (List.length zs).
  Proof.
    induction zs as [|z [|z' zs] IH]; [reflexivity|reflexivity|]. cbn [increments List.length pred] in *. rewrite IH. reflexivity.
  Qed.

  Lemma first_index_lt (p : A -> bool) l k : first_index p l = Some k -> (k < List.length l)%nat.
  Proof.
    revert k. induction l as [|a l IH]; intros k; cbn; [discriminate|].
    destruct (p a); [intros [= <-]; lia|]. destruct (first_index p l) as [i|]; [|discriminate].
    intros [= <-]. specialize (IH i eq_refl). lia.
  Qed.

  Lemma removelast_tl_length (l : list cplx) : List.length (removelast (tl l)) = (List.length l - 2)%nat.
  Proof.
    destruct l as [|a l]; [reflexivity|]. cbn [tl List.length].
    destruct l as [|b l]; [reflexivity|].
    assert (R : forall (x : cplx) l, List.length (removelast (x :: l)) = List.length l).
    { clear. intros x l. revert x. induction l as [|y l IH]; intro x; [reflexivity|].
      change (removelast (x :: y :: l)) with (x :: removelast (y :: l)). cbn [List.length]. rewrite IH. reflexivity. }
    rewrite R. cbn [List.length]. lia.
  Qed.

  Lemma In_removelast {B} (x : B) l : In x (removelast l) -> In x l.
  Proof.
    induction l as [|a l IH]; [auto|]. destruct l as [|b l]; [intros []|].
    change (removelast (a :: b :: l)) with (a :: removelast (b :: l)). intros [->|H]; [left; reflexivity|].
    right. apply IH, H.
  Qed.

  Lemma splice_seen k zArr zRef : Forall seen zArr -> Forall seen zRef ->
    Forall seen (firstn (S k) zArr ++ removelast (tl zRef) ++ skipn (S k) zArr).
  Proof.
    intros H1 H2. rewrite Forall_forall in *. intros z Hz. rewrite !in_app_iff in Hz.
    destruct Hz as [Hz|[Hz|Hz]].
    - apply H1. rewrite <- (firstn_skipn (S k) zArr). apply in_or_app. auto.
    - apply H2. apply In_removelast in Hz. destruct zRef as [|a zRef]; [destruct Hz|right; exact Hz].
    - apply H1. rewrite <- (firstn_skipn (S k) zArr). apply in_or_app. auto.
  Qed.

  Lemma phi_loop_zeros fuel : forall idx zArr phiArr zeros zs phis found,
    phi_loop azero fz fd large factor close numPts precision fuel idx zArr phiArr zeros = Gen zs phis found ->
    exists more, found = zeros ++ more.
  Proof.
    induction fuel as [|n IH]; intros idx zArr phiArr zeros zs phis found; cbn [phi_loop];
      (destruct (first_index large phiArr) as [k|]; [|intros [= <- <- <-]; exists []; rewrite app_nil_r; reflexivity]).
    - discriminate.
    - destruct (close _ _); [intros [= <- <- <-]; exists []; rewrite app_nil_r; reflexivity|].
      destruct (Nat.ltb _ _); [intros [= <- <- <-]; exists []; rewrite app_nil_r; reflexivity|].
      destruct (genFuncArr _ _ _ _ _ _) as [[zRef fnd]|]; [|discriminate].
      intro H. apply IH in H. destruct H as [more ->]. exists (fnd ++ more). rewrite app_assoc. reflexivity.
  Qed.

  Definition usable {B} (found : B -> option (list cplx)) (x : B) : Prop := free \/ found x = Some [].
  Definition gen_found (x : gen A) : option (list cplx) :=
    match x with Gen _ _ found => Some found | _ => None end.

  Lemma phi_loop_local fuel : forall idx zArr phiArr zeros,
    Forall seen zArr -> (List.length phiArr <= pred (List.length zArr))%nat ->
    usable gen_found (phi_loop azero fz fd large factor close numPts precision fuel idx zArr phiArr zeros) ->
    phi_loop azero gz gd large factor close numPts precision fuel idx zArr phiArr zeros =
    phi_loop azero fz fd large factor close numPts precision fuel idx zArr phiArr zeros.
  Proof.
    induction fuel as [|n IH]; intros idx zArr phiArr zeros Hz Hl; cbn [phi_loop].
    - destruct (first_index large phiArr); reflexivity.
    - destruct (first_index large phiArr) as [k|] eqn:FI; [|reflexivity].
      apply first_index_lt in FI.
      destruct (close _ _); [reflexivity|].
      destruct (Nat.ltb _ _); [reflexivity|].
      assert (Sk : seen (nth k zArr (0, 0)%Q)) by (rewrite Forall_forall in Hz; apply Hz, nth_In; lia).
      assert (Sk1 : seen (nth (S k) zArr (0, 0)%Q)) by (rewrite Forall_forall in Hz; apply Hz, nth_In; lia).
      pose proof (genFuncArr_local free r0 fz gz same_zero precision n _ _
        (factor (S idx) (nth k phiArr azero)) Sk Sk1) as G.
      destruct (genFuncArr fz precision n _ _ _) as [[zRef found]|] eqn:GF.
      + intro U.
        assert (W : free \/ found = []).
        { destruct U as [U|U]; [left; exact U|right].
          destruct (phi_loop azero fz fd large factor close numPts precision n (S idx) _ _ _) as [zs phis fnd| |] eqn:PL;
            try discriminate. cbn in U. injection U as ->. apply phi_loop_zeros in PL.
          destruct PL as [more E]. symmetry in E. apply app_eq_nil in E. destruct E as [E _].
          apply app_eq_nil in E. tauto. }
        destruct (G W) as [-> Hs]. rewrite <- (increments_local zRef Hs).
        apply IH; [apply splice_seen; assumption| |exact U].
        rewrite !app_length, removelast_tl_length, increments_length, !firstn_length, !skipn_length. lia.
      + intros [Fr|C]; [|discriminate]. rewrite (G Fr). reflexivity.
  Qed.

  Lemma genPhiArr_local fuel order a b : seen a -> seen b ->
    usable gen_found (genPhiArr azero fz fd large factor close numPts precision fuel order a b) ->
    genPhiArr azero gz gd large factor close numPts precision fuel order a b =
    genPhiArr azero fz fd large factor close numPts precision fuel order a b.
  Proof.
    intros Ha Hb. unfold genPhiArr. destruct (order =? 0); [|reflexivity].
    pose proof (genFuncArr_local free r0 fz gz same_zero precision fuel a b numPts Ha Hb) as G.
    destruct (genFuncArr fz precision fuel a b numPts) as [[zArr found]|] eqn:GF.
    - intro U.
      assert (W : free \/ found = []).
      { destruct U as [U|U]; [left; exact U|right].
        destruct (phi_loop azero fz fd large factor close numPts precision fuel 0 _ _ _) as [zs phis fnd| |] eqn:PL;
          try discriminate. cbn in U. injection U as ->. apply phi_loop_zeros in PL.
        destruct PL as [more E]. symmetry in E. apply app_eq_nil in E. tauto. }
      destruct (G W) as [-> Hs]. rewrite <- (increments_local zArr Hs).
      apply phi_loop_local; [exact Hs|rewrite increments_length; lia|exact U].
    - intros [Fr|C]; [|discriminate]. rewrite (G Fr). reflexivity.
  Qed.

  Definition line_found (x : line_result A) : option (list cplx) :=
    match x with LineOk _ found _ => Some found | _ => None end.

  Lemma retrieveCached_local end_test coord point level fuel order t1 t2 c :
    seen (point t1) -> seen (point t2) ->
    usable line_found (retrieveCached azero aadd aopp fz fd large factor close numPts precision
      end_test coord point level fuel order t1 t2 c) ->
    retrieveCached azero aadd aopp gz gd large factor close numPts precision
      end_test coord point level fuel order t1 t2 c =
    retrieveCached azero aadd aopp fz fd large factor close numPts precision
      end_test coord point level fuel order t1 t2 c.
  Proof.
    intros H1 H2. unfold retrieveCached. cbv zeta.
    set (s1 := if Qle_bool t1 t2 then t1 else t2). set (s2 := if Qle_bool t1 t2 then t2 else t1).
    assert (S1 : seen (point s1)) by (unfold s1; destruct (Qle_bool t1 t2); assumption).
    assert (S2 : seen (point s2)) by (unfold s2; destruct (Qle_bool t1 t2); assumption).
    pose proof (genPhiArr_local fuel order _ _ S1 S2) as G.
    assert (K : forall c', usable line_found
        (match genPhiArr azero fz fd large factor close numPts precision fuel order (point s1) (point s2) with
         | Gen zs phis found => LineOk (storeCache level order s1 s2 (zs, phis) c') found
              (if Qltb t1 t2 then asum azero aadd phis else aopp (asum azero aadd phis))
         | GenErr e => LineErr e | GenLoops => LineLoops end) ->
        match genPhiArr azero gz gd large factor close numPts precision fuel order (point s1) (point s2) with
         | Gen zs phis found => LineOk (storeCache level order s1 s2 (zs, phis) c') found
              (if Qltb t1 t2 then asum azero aadd phis else aopp (asum azero aadd phis))
         | GenErr e => LineErr e | GenLoops => LineLoops end =
        match genPhiArr azero fz fd large factor close numPts precision fuel order (point s1) (point s2) with
         | Gen zs phis found => LineOk (storeCache level order s1 s2 (zs, phis) c') found
              (if Qltb t1 t2 then asum azero aadd phis else aopp (asum azero aadd phis))
         | GenErr e => LineErr e | GenLoops => LineLoops end).
    { intros c' U. rewrite G; [reflexivity|].
      destruct U as [U|U]; [left; exact U|right].
      destruct (genPhiArr azero fz fd large factor close numPts precision fuel order (point s1) (point s2)); cbn in *;
        try discriminate. exact U. }
    destruct (dget okey_eqb (level, order) c) as [d|]; [|apply K].
    destruct (dget skey_eqb (s1, StartSide) d) as [v|].
    - destruct (Nat.ltb _ _); [apply K|]. destruct (last_index _ _); reflexivity.
    - destruct (dget skey_eqb (s2, EndSide) d) as [v|]; [|apply K].
      destruct (Nat.ltb _ _); [apply K|]. destruct (first_index _ _); reflexivity.
  Qed.

  Definition sum_found (x : sum_state A * sum_result A) : option (list cplx) :=
    match snd x with SumOk found _ => Some found | _ => None end.

  Lemma sumLine_local fuel order a b st : seen a -> seen b ->
    usable sum_found (sumLine azero aadd aopp fz fd large factor close numPts precision fuel order a b st) ->
    sumLine azero aadd aopp gz gd large factor close numPts precision fuel order a b st =
    sumLine azero aadd aopp fz fd large factor close numPts precision fuel order a b st.
  Proof.
    intros Ha Hb. unfold sumLine. cbv zeta.
    destruct (Qeq_bool (im a) (im b)) eqn:Q1; [|destruct (Qeq_bool (re a) (re b)) eqn:Q2; [|reflexivity]].
    - assert (Sb : seen (re b, im a)).
      { apply Qeq_bool_iff in Q1. destruct Ha as [[A1 A2] A3], Hb as [[B1 B2] B3]. split; [split; cbn [re im fst snd]; [exact B1|exact A2]|].
        cbn [re im fst snd]. destruct A3 as [F|[A3 A4]]; [left; exact F|]. destruct B3 as [F|[B3 B4]]; [left; exact F|].
        right. split; [exact B3|exact A4]. }
      assert (Sa : seen (re a, im a)) by (destruct a; exact Ha).
      intro U. rewrite (retrieveCached_local horizontal_end_test re (fun t => (t, im a)) (im a) fuel order _ _ _ Sa Sb); [reflexivity|].
      destruct U as [U|U]; [left; exact U|right].
      destruct (retrieveCached azero aadd aopp fz fd large factor close numPts precision horizontal_end_test re _ _ _ _ _ _ _);
        cbn in *; try discriminate; exact U.
    - assert (Sb : seen (re a, im b)).
      { destruct Ha as [[A1 A2] A3], Hb as [[B1 B2] B3]. split; [split; cbn [re im fst snd]; [exact A1|exact B2]|].
        cbn [re im fst snd]. destruct A3 as [F|[A3 A4]]; [left; exact F|]. destruct B3 as [F|[B3 B4]]; [left; exact F|].
        right. split; [exact A3|exact B4]. }
      assert (Sa : seen (re a, im a)) by (destruct a; exact Ha).
      intro U. rewrite (retrieveCached_local vertical_end_test im (fun t => (re a, t)) (re a) fuel order _ _ _ Sa Sb); [reflexivity|].
      destruct U as [U|U]; [left; exact U|right].
      destruct (retrieveCached azero aadd aopp fz fd large factor close numPts precision vertical_end_test im _ _ _ _ _ _ _);
        cbn in *; try discriminate; exact U.
  Qed.
End SumLocal.
