(** * How many points a line request samples (C91) *)
From Coq Require Import Reals.
From Verif Require Import PyBase Cache_Proofs Sum_Model Sum_Spec Angle_Proofs Sum_Proofs Sum_Proofs2 Sum_Proofs4 Sum_Proofs6 Samples_Spec.
From Coq Require Import Lqa Lra Lia.
Open Scope nat_scope.

Section Grow.
  Context {A : Type} (azero : A).
  Variables (fz : cplx -> bool) (dphase : cplx -> cplx -> A) (large : A -> bool)
    (factor : nat -> A -> nat) (close : cplx -> cplx -> bool) (numPts : nat) (precision : Z * Z).
  Variables (c : nat) (U : nat -> nat).
  Hypothesis c_big : 3 <= c.
  Hypothesis factor_grows : forall i p, large p = true -> c * S i <= factor (S i) p.
  Hypothesis factor_limited : forall i z z', large (dphase z z') = true -> factor (S i) (dphase z z') <= U (S i).

  Notation loop := (phi_loop azero fz dphase large factor close numPts precision).
  Notation genPhi := (genPhiArr azero fz dphase large factor close numPts precision).

  Lemma factor_three : forall i p, large p = true -> 3 <= factor (S i) p.
  Proof. intros i p H. pose proof (factor_grows i p H). nia. Qed.

  (** The points there must be after [k] rounds. *)
  Definition grown (k len : nat) : Prop := 2 * numPts + c * k * (k + 1) <= 2 * len + 4 * k.
  (** [k] rounds are possible within the cap. *)
  Definition possible (k : nat) : Prop := 2 * numPts + c * k * (k + 1) <= 200 * numPts + 4 * k.
  Definition phase_value (p : A) : Prop := exists z z', p = dphase z z'.

  Lemma increments_values zs : Forall phase_value (increments dphase zs).
  Proof.
    induction zs as [|z zs IH]; [constructor|]. destruct zs as [|z' zs]; [constructor|].
    change (increments dphase (z :: z' :: zs)) with (dphase z z' :: increments dphase (z' :: zs)).
    constructor; [exists z, z'; reflexivity|exact IH].
  Qed.

  Lemma Forall_firstn' {B} (P : B -> Prop) k l : Forall P l -> Forall P (firstn k l).
  Proof. rewrite <- (firstn_skipn k l) at 1. rewrite Forall_app. tauto. Qed.
  Lemma Forall_skipn' {B} (P : B -> Prop) k l : Forall P l -> Forall P (skipn k l).
  Proof. rewrite <- (firstn_skipn k l) at 1. rewrite Forall_app. tauto. Qed.

  Lemma round_step k idx zs phis zRef : lengths zs phis -> Forall phase_value phis -> grown idx (List.length zs) ->
    first_index large phis = Some k -> List.length zRef = factor (S idx) (nth k phis azero) ->
    let zs' := firstn (S k) zs ++ removelast (tl zRef) ++ skipn (S k) zs in
    let phis' := firstn k phis ++ increments dphase zRef ++ skipn (S k) phis in
    lengths zs' phis' /\ Forall phase_value phis' /\ grown (S idx) (List.length zs') /\
    List.length zs' <= List.length zs + U (S idx).
  Proof.
    intros HL HV HG FI LR zs' phis'. destruct (first_index_some _ _ _ FI) as [Hk Hp].
    pose proof (factor_three idx (nth k phis azero) (Hp _)) as F3.
    pose proof (factor_grows idx (nth k phis azero) (Hp _)) as FG.
    destruct (splice_length dphase k zs phis zRef HL Hk ltac:(lia)) as [S1 S2]. fold zs' in S1, S2. fold phis' in S1.
    split; [exact S1|]. split; [|split].
    - unfold phis'. apply Forall_app. split; [apply Forall_firstn', HV|]. apply Forall_app.
      split; [apply increments_values|apply Forall_skipn', HV].
    - unfold grown in *. rewrite S2. nia.
    - assert (V : phase_value (nth k phis azero)) by (apply (proj1 (Forall_forall _ _) HV), nth_In, Hk).
      destruct V as (z & z' & V). pose proof (Hp azero) as HP. rewrite V in HP, LR.
      pose proof (factor_limited idx z z' HP) as FU. rewrite S2. lia.
  Qed.

  Lemma loop_size : forall fuel idx zs phis zeros zs' phis' zeros',
    lengths zs phis -> Forall phase_value phis -> grown idx (List.length zs) ->
    loop fuel idx zs phis zeros = Gen zs' phis' zeros' ->
    List.length zs' = List.length zs \/ exists k, possible k /\ List.length zs' <= 100 * numPts + U (S k).
  Proof.
    induction fuel as [|fuel IH]; intros idx zs phis zeros zs' phis' zeros' HL HV HG H; cbn [phi_loop] in H.
    { destruct (first_index large phis); [discriminate|]. injection H as <- _ _. left. reflexivity. }
    destruct (first_index large phis) as [k|] eqn:FI; [|injection H as <- _ _; left; reflexivity].
    destruct (close _ _); [injection H as <- _ _; left; reflexivity|].
    destruct (Nat.ltb _ _) eqn:LT; [injection H as <- _ _; left; reflexivity|].
    apply Nat.ltb_ge in LT. unfold MAX_Z_LENGTH in LT.
    destruct (genFuncArr fz precision fuel _ _ _) as [[zRef found]|] eqn:G; [|discriminate].
    pose proof (genFuncArr_length _ _ _ _ _ _ _ _ G) as LR.
    destruct (round_step k idx zs phis zRef HL HV HG FI LR) as (R1 & R2 & R3 & R4).
    right. destruct (IH _ _ _ _ _ _ _ R1 R2 R3 H) as [E|E]; [|exact E].
    exists idx. split; [unfold possible, grown in *; lia|]. rewrite E. lia.
  Qed.

  Lemma gen_size fuel a b zs phis zeros : 1 <= numPts -> genPhi fuel 0 a b = Gen zs phis zeros ->
    List.length zs = numPts \/ exists k, possible k /\ List.length zs <= 100 * numPts + U (S k).
  Proof.
    intros Hn H. unfold genPhiArr in H. cbn [Z.eqb] in H.
    destruct (genFuncArr fz precision fuel a b numPts) as [[z0 found]|] eqn:G; [|discriminate].
    pose proof (genFuncArr_length _ _ _ _ _ _ _ _ G) as LR. rewrite <- LR at 1.
    apply (loop_size fuel 0 z0 (increments dphase z0) found zs phis zeros); [| | |exact H].
    - unfold lengths. rewrite increments_length. lia.
    - apply increments_values.
    - unfold grown. lia.
  Qed.

  Lemma loop_lengths : forall fuel idx zs phis zeros zs' phis' zeros', lengths zs phis ->
    loop fuel idx zs phis zeros = Gen zs' phis' zeros' -> lengths zs' phis'.
  Proof.
    induction fuel as [|fuel IH]; intros idx zs phis zeros zs' phis' zeros' HL H; cbn [phi_loop] in H.
    { destruct (first_index large phis); [discriminate|]. injection H as <- <- _. exact HL. }
    destruct (first_index large phis) as [k|] eqn:FI; [|injection H as <- <- _; exact HL].
    destruct (close _ _); [injection H as <- <- _; exact HL|].
    destruct (Nat.ltb _ _); [injection H as <- <- _; exact HL|].
    destruct (genFuncArr fz precision fuel _ _ _) as [[zRef found]|] eqn:G; [|discriminate].
    pose proof (genFuncArr_length _ _ _ _ _ _ _ _ G) as LR. destruct (first_index_some _ _ _ FI) as [Hk Hp].
    pose proof (factor_three idx (nth k phis azero) (Hp _)) as F3.
    destruct (splice_length dphase k zs phis zRef HL Hk ltac:(lia)) as [S1 _]. exact (IH _ _ _ _ _ _ _ S1 H).
  Qed.

  Lemma gen_lengths fuel a b zs phis zeros : 1 <= numPts -> genPhi fuel 0 a b = Gen zs phis zeros -> lengths zs phis.
  Proof.
    intros Hn H. unfold genPhiArr in H. cbn [Z.eqb] in H.
    destruct (genFuncArr fz precision fuel a b numPts) as [[z0 found]|] eqn:G; [|discriminate].
    pose proof (genFuncArr_length _ _ _ _ _ _ _ _ G) as LR.
    apply (loop_lengths fuel 0 z0 (increments dphase z0) found zs phis zeros); [|exact H].
    unfold lengths. rewrite increments_length. lia.
  Qed.

  (** Number of rounds. *)
  Variable I : cplx -> Prop.
  Hypothesis I_linspace : forall a b m z, I a -> I b -> In z (linspaceC a b m) -> I z.
  Hypothesis I_clean : forall z, I z -> fz z = false.

  Lemma clean_array fuel a b m : 1 <= fuel -> I a -> I b -> genFuncArr fz precision fuel a b m = Some (linspaceC a b m, []).
  Proof.
    intros Hf Ha Hb. destruct fuel as [|fuel]; [lia|]. unfold genFuncArr. cbn [shift_loop].
    assert (E : filter fz (linspaceC a b m) = []).
    { assert (G : Forall I (linspaceC a b m)) by (apply Forall_forall; intros z; apply I_linspace; assumption).
      induction G as [|z l Hz _ IH]; [reflexivity|]. cbn. rewrite (I_clean _ Hz). exact IH. }
    rewrite E. reflexivity.
  Qed.

  Lemma loop_rounds K : ~ possible K -> forall m idx zs phis fuel, idx + m = K -> m + 2 <= fuel ->
    lengths zs phis -> Forall phase_value phis -> grown idx (List.length zs) -> Forall I zs ->
    loop fuel idx zs phis [] <> GenLoops.
  Proof.
    intro HK. induction m as [|m IH]; intros idx zs phis fuel HM HF HL HV HG HI.
    - destruct fuel as [|fuel]; [lia|]. cbn [phi_loop]. destruct (first_index large phis); [|discriminate].
      destruct (close _ _); [discriminate|].
      assert (Nat.ltb (MAX_Z_LENGTH * numPts) (List.length zs) = true) as ->; [|discriminate].
      apply Nat.ltb_lt. unfold MAX_Z_LENGTH, possible, grown in *. assert (idx = K) as -> by lia. lia.
    - destruct fuel as [|fuel]; [lia|]. cbn [phi_loop].
      destruct (first_index large phis) as [k|] eqn:FI; [|discriminate].
      destruct (close _ _); [discriminate|]. destruct (Nat.ltb _ _); [discriminate|].
      destruct (first_index_some _ _ _ FI) as [Hk Hp]. unfold lengths in HL.
      assert (I0 : I (nth k zs (0, 0)%Q)) by (apply (proj1 (Forall_forall _ _) HI), nth_In; lia).
      assert (I1 : I (nth (S k) zs (0, 0)%Q)) by (apply (proj1 (Forall_forall _ _) HI), nth_In; lia).
      rewrite clean_array by (assumption || lia).
      set (zRef := linspaceC _ _ _) in *.
      assert (LR : List.length zRef = factor (S idx) (nth k phis azero)) by apply linspaceC_length.
      destruct (round_step k idx zs phis zRef HL HV HG FI LR) as (R1 & R2 & R3 & R4).
      rewrite app_nil_r. apply IH; [lia|lia|exact R1|exact R2|exact R3|].
      apply Forall_app. split; [apply Forall_firstn'; exact HI|]. apply Forall_app. split; [|apply Forall_skipn'; exact HI].
      apply Forall_forall. intros z Hz. apply (I_linspace _ _ (factor (S idx) (nth k phis azero)) _ I0 I1).
      change (linspaceC (nth k zs (0, 0)%Q) (nth (S k) zs (0, 0)%Q) (factor (S idx) (nth k phis azero))) with zRef.
      destruct zRef as [|x zr]; [cbn in Hz; contradiction|]. right. cbn [tl] in Hz.
      rewrite removelast_firstn_len in Hz. rewrite <- (firstn_skipn (pred (List.length zr)) zr).
      apply in_or_app. left. exact Hz.
  Qed.

  Lemma gen_rounds K fuel a b : ~ possible K -> 1 <= numPts -> K + 2 <= fuel -> I a -> I b -> genPhi fuel 0 a b <> GenLoops.
  Proof.
    intros HK Hn HF Ia Ib. unfold genPhiArr. cbn [Z.eqb]. rewrite clean_array by (assumption || lia).
    apply (loop_rounds K HK K); [lia|lia| | | |].
    - unfold lengths. rewrite increments_length, linspaceC_length. lia.
    - apply increments_values.
    - unfold grown. rewrite linspaceC_length. lia.
    - apply Forall_forall. intros z. apply I_linspace; assumption.
  Qed.
End Grow.

(** ** The estimator over the reals *)
Lemma refinement_grows delta : (0 < delta)%R -> forall i p, at_least delta p = true -> 100 * S i <= refinement delta (S i) p.
Proof.
  intros HD i p. unfold at_least, refinement. destruct (Rle_dec delta (Rabs p)) as [H|H]; [intros _|discriminate].
  set (x := (INR (S i) * 100 * Rabs p / delta)%R).
  assert (Hx : (IZR (Z.of_nat (100 * S i)) <= x)%R).
  { rewrite <- INR_IZR_INZ, mult_INR. replace (INR 100) with 100%R by (cbn; lra). unfold x. apply Rmult_le_reg_r with delta; [exact HD|].
    unfold Rdiv. rewrite !Rmult_assoc, Rinv_l, Rmult_1_r by lra.
    pose proof (pos_INR (S i)) as P.
    replace (100 * (INR (S i) * delta))%R with (INR (S i) * (100 * delta))%R by ring.
    apply Rmult_le_compat_l; [exact P|]. apply Rmult_le_compat_l; [lra|exact H]. }
  assert (HI : (Z.of_nat (100 * S i) <= Int_part x)%Z).
  { destruct (base_Int_part x) as [B1 B2]. apply Z.lt_succ_r. apply lt_IZR. unfold Z.succ. rewrite plus_IZR. lra. }
  lia.
Qed.

Definition most (delta : R) (i : nat) : nat := Z.to_nat (Int_part (INR i * 100 * PI / delta)).
Lemma most_bound delta i : (0 < delta)%R -> (INR (most delta i) <= INR i * 100 * PI / delta)%R.
Proof.
  intro HD. unfold most. set (x := (INR i * 100 * PI / delta)%R).
  assert (X : (0 <= x)%R).
  { unfold x. pose proof PI_RGT_0 as P. pose proof (pos_INR i) as N. apply Rmult_le_pos; [|left; apply Rinv_0_lt_compat, HD].
    apply Rmult_le_pos; [lra|lra]. }
  destruct (base_Int_part x) as [B1 B2].
  assert (0 <= Int_part x)%Z.
  { apply Z.lt_succ_r. apply lt_IZR. unfold Z.succ. rewrite plus_IZR. lra. }
  rewrite INR_IZR_INZ, Z2Nat.id by assumption. exact B1.
Qed.

Lemma phase_step_range f z z' : (Rabs (phase_step f z z') <= PI)%R.
Proof. unfold phase_step. destruct (arctan2_range (quotient (f z') (f z))) as [A B]. apply Rabs_le. lra. Qed.

Lemma Int_part_mono x y : (x <= y)%R -> (Int_part x <= Int_part y)%Z.
Proof.
  intro H. destruct (base_Int_part x) as [A1 A2], (base_Int_part y) as [B1 B2].
  apply Z.lt_succ_r. apply lt_IZR. unfold Z.succ. rewrite plus_IZR. lra.
Qed.

Lemma refinement_limited f delta : (0 < delta)%R -> forall i z z', at_least delta (phase_step f z z') = true ->
  refinement delta (S i) (phase_step f z z') <= most delta (S i).
Proof.
  intros HD i z z' _. unfold refinement, most.
  assert (L : (Int_part (INR (S i) * 100 * Rabs (phase_step f z z') / delta) <= Int_part (INR (S i) * 100 * PI / delta))%Z).
  { apply Int_part_mono. apply Rmult_le_compat_r; [left; apply Rinv_0_lt_compat, HD|].
    apply Rmult_le_compat_l; [pose proof (pos_INR (S i)); lra|apply phase_step_range]. }
  lia.
Qed.

Lemma possible_100 n k : possible n 100 k -> k * k <= 2 * n.
Proof. unfold possible. nia. Qed.

Lemma gen_phi_samples f delta mp n prec fuel a b zs phis zeros : (0 < delta)%R -> 1 <= n ->
  gen_phi f delta mp n prec fuel 0 a b = Gen zs phis zeros -> sample_limit n delta (List.length zs).
Proof.
  intros HD Hn H.
  destruct (gen_size 0%R (vanishes f) (phase_step f) (at_least delta) (refinement delta) (nearer mp) n prec 100 (most delta)
    ltac:(lia) (refinement_grows delta HD) (refinement_limited f delta HD) fuel a b zs phis zeros Hn H) as [E|(k & P & E)].
  - exists 0. split; [lia|]. rewrite E. pose proof (pos_INR n) as N.
    assert (0 <= INR 1 * 100 * PI / delta)%R.
    { pose proof PI_RGT_0. cbn [INR]. apply Rmult_le_pos; [lra|left; apply Rinv_0_lt_compat, HD]. }
    lra.
  - exists k. split; [apply possible_100, P|]. apply le_INR in E. rewrite plus_INR, mult_INR in E.
    replace (INR 100) with 100%R in E by (cbn; lra). pose proof (most_bound delta (S k) HD). lra.
Qed.

Lemma gen_phi_rounds f delta mp n prec fuel K a b : (0 < delta)%R -> 1 <= n -> 2 * n < K * K -> K + 2 <= fuel ->
  (forall t, (0 <= t)%Q -> (t <= 1)%Q -> nonzero (f (re a + t * (re b - re a), im a + t * (im b - im a))%Q)) ->
  (forall z z', ceq z z' -> f z = f z') ->
  gen_phi f delta mp n prec fuel 0 a b <> GenLoops.
Proof.
  intros HD Hn HK HF HZ HP.
  set (I := fun z => exists t, (0 <= t)%Q /\ (t <= 1)%Q /\ ceq z (re a + t * (re b - re a), im a + t * (im b - im a))%Q).
  apply (gen_rounds 0%R (vanishes f) (phase_step f) (at_least delta) (refinement delta) (nearer mp) n prec 100 (most delta)
    ltac:(lia) (refinement_grows delta HD) (refinement_limited f delta HD) I) with (K := K).
  - intros p q m z (t & T0 & T1 & T2 & T3) (s & S0 & S1 & S2 & S3) Hz. cbn [re im fst snd] in *.
    assert (IP : I p) by (exists t; repeat split; assumption).
    assert (IQ : I q) by (exists s; repeat split; assumption).
    destruct m as [|[|m]]; [contradiction|destruct Hz as [<-|[]]; exact IP|].
    cbn [linspaceC] in Hz. destruct Hz as [<-|Hz]; [exact IP|].
    apply in_app_or in Hz as [Hz|[<-|[]]]; [|exact IQ].
    apply in_map_iff in Hz as (i & <- & Hi). apply in_seq in Hi.
    assert (W : exists w, (0 <= w)%Q /\ (w <= 1)%Q /\
      linpoint p q (S m) i = (re p + w * (re q - re p), im p + w * (im q - im p))%Q).
    { exists (inject_Z (Z.of_nat i) / inject_Z (Z.of_nat (S m)))%Q.
      assert (0 < inject_Z (Z.of_nat (S m)))%Q by apply steps_pos.
      split; [|split; [|reflexivity]].
      - apply Qle_shift_div_l; [assumption|]. rewrite Qmult_0_l. change 0%Q with (inject_Z 0). rewrite <- Zle_Qle. lia.
      - apply Qle_shift_div_r; [assumption|]. rewrite Qmult_1_l. rewrite <- Zle_Qle. lia. }
    destruct W as (w & W0 & W1 & ->). exists (t + w * (s - t))%Q.
    split; [Lqa.nra|]. split; [Lqa.nra|].
    split; cbn [re im fst snd]; [rewrite T2, S2|rewrite T3, S3]; ring.
  - intros z (t & T0 & T1 & T2). apply vanishes_false. rewrite (HP _ _ T2). apply HZ; assumption.
  - intro P. apply possible_100 in P. lia.
  - exact Hn.
  - exact HF.
  - exists 0%Q. split; [apply Qle_refl|]. split; [discriminate|]. split; cbn; ring.
  - exists 1%Q. split; [discriminate|]. split; [apply Qle_refl|]. split; cbn; ring.
Qed.
