(** * The zeros a line request reports (C39) *)
From Coq Require Import Reals.
From Verif Require Import PyBase Sum_Model Sum_Spec Angle_Proofs Sum_Proofs Sum_Proofs2 Sum_Proofs3 Sum_Proofs5 Sum_Proofs6 Sum_Examples.
Open Scope Z_scope.

Lemma found_vanish fz prec fuel a b size out found :
  genFuncArr fz prec fuel a b size = Some (out, found) ->
  (forall z, In z found -> fz z = true) /\ (forall z, In z (linspaceC a b size) -> fz z = true -> In z found).
Proof.
  intro H. destruct (shift_loop_sound _ _ _ _ _ _ H) as (n & H1 & H2 & _ & ->). split.
  - intros z Hz. apply in_flat_map in Hz. destruct Hz as (m & _ & Hz). apply filter_In in Hz. apply Hz.
  - intros z Hz V. apply in_flat_map. exists 0%nat. destruct n as [|n].
    + exfalso. subst out. change (shifted _ 0 (linspaceC a b size)) with (linspaceC a b size) in H2.
      assert (In z (filter fz (linspaceC a b size))) as X by (apply filter_In; split; assumption). rewrite H2 in X. exact X.
    + split; [apply in_seq; lia|]. apply filter_In. split; assumption.
Qed.

Section Found.
  Context {A : Type} (azero : A) (aadd : A -> A -> A) (aopp : A -> A).
  Variable fz : cplx -> bool.
  Variable dphase : cplx -> cplx -> A.
  Variable large : A -> bool.
  Variable factor : nat -> A -> nat.
  Variable close : cplx -> cplx -> bool.
  Variable numPts : nat.
  Variable precision : Z * Z.

  Lemma loop_found : forall fuel idx zs phis zeros zs' phis' zeros',
    phi_loop azero fz dphase large factor close numPts precision fuel idx zs phis zeros = Gen zs' phis' zeros' ->
    (forall z, In z zeros -> In z zeros') /\ ((forall z, In z zeros -> fz z = true) -> forall z, In z zeros' -> fz z = true).
  Proof.
    induction fuel as [|fuel IH]; intros idx zs phis zeros zs' phis' zeros' H; cbn [phi_loop] in H;
      destruct (first_index large phis) as [k|]; try discriminate; try (injection H as <- <- <-; split; auto; fail).
    destruct (close _ _); [injection H as <- <- <-; split; auto|].
    destruct (Nat.ltb _ _); [injection H as <- <- <-; split; auto|].
    destruct (genFuncArr fz precision fuel _ _ _) as [[zRef found]|] eqn:G; [|discriminate].
    destruct (IH _ _ _ _ _ _ _ H) as [H1 H2]. destruct (found_vanish _ _ _ _ _ _ _ _ G) as [F _]. split.
    - intros z Hz. apply H1, in_or_app. left. exact Hz.
    - intros V. apply H2. intros z Hz. apply in_app_or in Hz. destruct Hz as [Hz|Hz]; [apply V, Hz|apply F, Hz].
  Qed.

  Lemma gen_found fuel order a b zs phis found :
    genPhiArr azero fz dphase large factor close numPts precision fuel order a b = Gen zs phis found ->
    (forall z, In z found -> fz z = true) /\ (forall z, In z (linspaceC a b numPts) -> fz z = true -> In z found).
  Proof.
    unfold genPhiArr. destruct (order =? 0); [|discriminate].
    destruct (genFuncArr fz precision fuel a b numPts) as [[zArr f0]|] eqn:G; [|discriminate]. intro H.
    destruct (loop_found _ _ _ _ _ _ _ _ H) as [H1 H2]. destruct (found_vanish _ _ _ _ _ _ _ _ G) as [F1 F2]. split.
    - apply H2. exact F1.
    - intros z Hz V. apply H1, F2; assumption.
  Qed.

  Lemma retrieve_found end_test coord point level fuel order t1 t2 c c' found phi :
    retrieveCached azero aadd aopp fz dphase large factor close numPts precision end_test coord point level fuel order t1 t2 c = LineOk c' found phi ->
    (forall z, In z found -> fz z = true).
  Proof.
    unfold retrieveCached.
    assert (G : forall c0 sg, match genPhiArr azero fz dphase large factor close numPts precision fuel order
        (point (if Qle_bool t1 t2 then t1 else t2)) (point (if Qle_bool t1 t2 then t2 else t1)) with
      | GenErr e => LineErr e | GenLoops => LineLoops
      | Gen zs phis found => LineOk (storeCache level order (if Qle_bool t1 t2 then t1 else t2) (if Qle_bool t1 t2 then t2 else t1) (zs, phis) c0) found (sg (asum azero aadd phis)) end
      = LineOk c' found phi -> (forall z, In z found -> fz z = true)).
    { intros c0 sg H. destruct (genPhiArr _ _ _ _ _ _ _ _ _ _ _ _) as [zs phis fd|e|] eqn:E; try discriminate.
      injection H as _ <- _. apply (gen_found _ _ _ _ _ _ _ E). }
    destruct (dget okey_eqb (level, order) c) as [d|]; [|intro H; exact (G _ (fun p => if Qltb t1 t2 then p else aopp p) H)].
    destruct (dget skey_eqb (_, StartSide) d) as [v|].
    - destruct (Nat.ltb _ 3); [intro H; exact (G _ (fun p => if Qltb t1 t2 then p else aopp p) H)|]. destruct (last_index _ _); [|discriminate].
      intro H. injection H as _ <- _. intros z [].
    - destruct (dget skey_eqb (_, EndSide) d) as [v|]; [|intro H; exact (G _ (fun p => if Qltb t1 t2 then p else aopp p) H)].
      destruct (Nat.ltb _ 3); [intro H; exact (G _ (fun p => if Qltb t1 t2 then p else aopp p) H)|]. destruct (first_index _ _); [|discriminate].
      intro H. injection H as _ <- _. intros z [].
  Qed.
End Found.

Lemma vanishes_zero f z : vanishes f z = true -> f z = (0, 0)%R.
Proof.
  unfold vanishes. destruct (Req_EM_T (fst (f z)) 0) as [A|]; [|discriminate]. destruct (Req_EM_T (snd (f z)) 0) as [B|]; [|discriminate].
  intros _. destruct (f z); cbn in *; subst; reflexivity.
Qed.

(** Any line, any state of the caches: what is reported is a zero. *)
Theorem line_found_zero f delta mp n prec fuel order a b st st' found p :
  sum_line f delta mp n prec fuel order a b st = (st', SumOk found p) -> forall z, In z found -> f z = (0, 0)%R.
Proof.
  unfold sum_line, sumLine. intros H z Hz. apply vanishes_zero.
  destruct (Qeq_bool (im a) (im b)); [|destruct (Qeq_bool (re a) (re b)); [|discriminate]];
    match type of H with (match ?r with _ => _ end) = _ => destruct r as [c fd ph|e|] eqn:E end; try discriminate;
    injection H as _ <- _; exact (retrieve_found _ _ _ _ _ _ _ _ _ _ _ _ _ _ _ _ _ _ _ _ _ _ E z Hz).
Qed.

Lemma Forall2_in_left {A B} (R : A -> B -> Prop) l l' : Forall2 R l l' -> forall x, In x l -> exists y, In y l' /\ R x y.
Proof.
  intro H. induction H as [|a b l l' Hab H IH]; intros x Hx; [destruct Hx|].
  destruct Hx as [<-|Hx]; [exists b; split; [left; reflexivity|exact Hab]|].
  destruct (IH x Hx) as (y & Hy & HR). exists y. split; [right; exact Hy|exact HR].
Qed.

(** A line on a level not in the caches: every zero among the evenly spaced samples is reported. *)
Theorem line_found_all f delta mp m prec fuel horiz level t1 t2 st st' found p :
  (forall z z', ceq z z' -> f z = f z') -> (t1 < t2)%Q -> level_free st horiz level ->
  sum_line f delta mp (S (S m)) prec fuel 0 (mkpoint horiz level t1) (mkpoint horiz level t2) st = (st', SumOk found p) ->
  forall z, In z (uniform (mkpoint horiz level t1) (mkpoint horiz level t2) (S m)) -> f z = (0, 0)%R -> exists z', In z' found /\ ceq z z'.
Proof.
  intros HF L FR H z Hz V. rewrite sum_line_as_retrieve in H by exact L.
  rewrite retrieve_miss in H by (exact L || (unfold line_cache; destruct horiz; exact FR)).
  destruct (genPhiArr _ _ _ _ _ _ _ _ _ _ _ _) as [zs phis fd|e|] eqn:E; try discriminate.
  assert (fd = found) as <- by (injection H; auto).
  destruct (gen_found _ _ _ _ _ _ _ _ _ _ _ _ _ _ _ E) as [_ G].
  destruct (Forall2_in_left _ _ _ (linspaceC_uniform _ _ _) z Hz) as (z' & Hz' & C).
  exists z'. split; [|exact C]. apply G; [exact Hz'|]. rewrite vanishes_true; [reflexivity|]. rewrite <- (HF _ _ C). exact V.
Qed.
