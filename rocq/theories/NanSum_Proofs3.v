(** * Proofs for C86: rectangles *)
From Coq Require Import Reals Qreals.
From Verif Require Import PyBase Cache_Proofs Container_Model Refine_Model Refine_Spec Cache_Model Sum_Model Sum_Spec Nan_Model NanRefine_Model NanSum_Model NanSum_Spec.
From Coq Require Import Lqa.
Open Scope Z_scope.
Open Scope list_scope.

Definition swap (e : cplx * cplx) : cplx * cplx := (snd e, fst e).

Lemma sum_nan vs : forall a, a = NaN \/ In NaN vs -> fold_left num_add vs a = NaN.
Proof.
  induction vs as [|v vs IH]; intros a H; cbn [fold_left In] in *; [tauto|]. apply IH.
  destruct H as [->|[->|H]]; [left; reflexivity|left; destruct a; reflexivity|right; exact H].
Qed.
Lemma sum_fin qs : forall a, exists q, fold_left num_add (map Fin qs) (Fin a) = Fin q /\ (q == a + total qs)%Q.
Proof.
  induction qs as [|x qs IH]; intro a; cbn [map fold_left num_add total].
  - exists a. split; [reflexivity|ring].
  - destruct (IH (a + x)%Q) as (q & Q1 & Q2). exists q. split; [exact Q1|]. rewrite Q2. ring.
Qed.

Lemma remembered_eq c e :
  remembered c e = if ntruthy (dget ckey_eqb e c) then dget ckey_eqb e c else None.
Proof.
  unfold remembered, ntruthy. destruct (dget ckey_eqb e c) as [[q| | |]|]; try reflexivity.
  destruct (Qeq_bool q 0); reflexivity.
Qed.
Lemma remembered_set c e k v : ckey_eqb e k = false -> remembered (dset ckey_eqb k v c) e = remembered c e.
Proof. intro H. unfold remembered. rewrite (dget_dset ckey_eqb ckey_t ckey_s), H. reflexivity. Qed.

Section Moment.
  Context {LS : Type}.
  Variable line : cplx -> cplx -> LS -> LS * list cplx * res num.

  Fixpoint apart (es : list (cplx * cplx)) : Prop :=
    match es with
    | [] => True
    | e :: es' => (forall e', In e' es' -> ckey_eqb e' e = false /\ ckey_eqb e' (swap e) = false) /\
                  ckey_eqb e (swap e) = false /\ apart es'
    end.

  Definition asked (e : cplx * cplx) (v : num) : Prop := exists ls ls' zs, line (fst e) (snd e) ls = (ls', zs, Ok v).

  Lemma loop_values : forall es phi c ls c' ls' zs out, apart es ->
    nmoment_loop line es phi (c, ls) = ((c', ls'), zs, Ok out) ->
    exists vs, out = fold_left num_add vs phi /\
      Forall2 (fun e v => match remembered c e with Some w => v = w | None => asked e v end) es vs /\
      Forall2 (fun e v => match remembered c e with
                          | Some _ => True
                          | None => dget ckey_eqb e c' = Some v /\ dget ckey_eqb (swap e) c' = Some (num_opp v) end) es vs /\
      (forall k, (forall e, In e es -> ckey_eqb k e = false /\ ckey_eqb k (swap e) = false) -> dget ckey_eqb k c' = dget ckey_eqb k c) /\
      (forall e, In e es -> remembered c e <> None -> dget ckey_eqb e c' = dget ckey_eqb e c).
  Proof.
    induction es as [|[a b] es IH]; intros phi c ls c' ls' zs out AP H; cbn [nmoment_loop] in H.
    { injection H as <- <- <- <-. exists []. split; [reflexivity|]. split; [constructor|]. split; [constructor|]. split; [reflexivity|].
      intros e []. }
    cbn [fst snd] in H. destruct AP as (AP1 & AP0 & AP2). pose proof (remembered_eq c (a, b)) as RE.
    destruct (ntruthy (dget ckey_eqb (a, b) c)) eqn:T.
    - destruct (dget ckey_eqb (a, b) c) as [v|] eqn:D; [|discriminate].
      destruct (IH _ _ _ _ _ _ _ AP2 H) as (vs & V1 & V2 & V3 & V4 & V5). exists (v :: vs).
      split; [exact V1|]. split; [constructor; [rewrite RE; reflexivity|exact V2]|].
      split; [constructor; [rewrite RE; exact I|exact V3]|]. split.
      + intros k K. apply V4. intros e He. apply K. right. exact He.
      + intros e [<-|He] NR; [|apply V5; assumption]. apply V4. intros e' He'.
        destruct (AP1 e' He') as [A1 A2]. rewrite ckey_s. split; [exact A1|].
        destruct (ckey_eqb (a, b) (swap e')) eqn:X; [|reflexivity]. exfalso.
        apply ckey_iff in X as [X1 X2]. cbn [fst snd swap] in *.
        assert (Y : ckey_eqb e' (swap (a, b)) = true).
        { apply ckey_iff. cbn [fst snd swap]. split; split; symmetry; first [apply X1|apply X2]. }
        rewrite Y in A2. discriminate.
    - destruct (line a b ls) as [[ls1 zs1] [v|e]] eqn:LN; [|discriminate].
      set (c2 := dset ckey_eqb (b, a) (num_opp v) (dset ckey_eqb (a, b) v c)) in *.
      destruct (nmoment_loop line es (num_add phi v) (c2, ls1)) as [[[c3 ls3] zs3] o3] eqn:R.
      injection H as <- <- <- ->.
      destruct (IH _ _ _ _ _ _ _ AP2 R) as (vs & V1 & V2 & V3 & V4 & V5). exists (v :: vs).
      assert (KEEP : forall e, In e es -> remembered c2 e = remembered c e).
      { intros e He. destruct (AP1 e He) as [A1 A2]. unfold c2. rewrite !remembered_set by assumption. reflexivity. }
      assert (GET : dget ckey_eqb (a, b) c3 = Some v /\ dget ckey_eqb (b, a) c3 = Some (num_opp v)).
      { assert (K1 : forall e, In e es -> ckey_eqb (a, b) e = false /\ ckey_eqb (a, b) (swap e) = false).
        { intros e' He'. destruct (AP1 e' He') as [A1 A2]. rewrite ckey_s. split; [exact A1|].
          destruct (ckey_eqb (a, b) (swap e')) eqn:X; [|reflexivity]. exfalso.
          apply ckey_iff in X as [X1 X2]. cbn [fst snd swap] in *.
          assert (Y : ckey_eqb e' (swap (a, b)) = true).
          { apply ckey_iff. cbn [fst snd swap]. split; split; symmetry; first [apply X1|apply X2]. }
          rewrite Y in A2. discriminate. }
        assert (K2 : forall e, In e es -> ckey_eqb (b, a) e = false /\ ckey_eqb (b, a) (swap e) = false).
        { intros e' He'. destruct (AP1 e' He') as [A1 A2]. rewrite ckey_s. split; [exact A2|].
          destruct (ckey_eqb (b, a) (swap e')) eqn:X; [|reflexivity]. exfalso.
          apply ckey_iff in X as [X1 X2]. cbn [fst snd swap] in *.
          assert (Y : ckey_eqb e' (a, b) = true).
          { apply ckey_iff. cbn [fst snd swap]. split; split; symmetry; first [apply X1|apply X2]. }
          rewrite Y in A1. discriminate. }
        rewrite (V4 _ K1), (V4 _ K2). unfold c2. rewrite !(dget_dset ckey_eqb ckey_t ckey_s), !ckey_r.
        change (b, a) with (swap (a, b)). rewrite AP0. auto. }
      split; [exact V1|]. split; [|split; [|split]].
      + constructor; [rewrite RE; exists ls, ls1, zs1; exact LN|].
        clear - V2 KEEP. revert KEEP. induction V2 as [|e w es vs H _ IH]; intro KEEP; [constructor|].
        constructor; [rewrite <- KEEP by (left; reflexivity); exact H|]. apply IH. intros e' He'. apply KEEP. right. exact He'.
      + constructor; [rewrite RE; exact GET|].
        clear - V3 KEEP. revert KEEP. induction V3 as [|e w es vs H _ IH]; intro KEEP; [constructor|].
        constructor; [rewrite <- KEEP by (left; reflexivity); exact H|]. apply IH. intros e' He'. apply KEEP. right. exact He'.
      + intros k K. rewrite V4 by (intros e He; apply K; right; exact He).
        destruct (K (a, b) (or_introl eq_refl)) as [K1 K2]. unfold c2.
        rewrite !(dget_dset ckey_eqb ckey_t ckey_s), K1. change (b, a) with (swap (a, b)). rewrite K2. reflexivity.
      + intros e [<-|He] NR; [rewrite RE in NR; contradiction|].
        rewrite V5 by (try assumption; rewrite KEEP by assumption; exact NR).
        destruct (AP1 e He) as [A1 A2]. unfold c2. rewrite !(dget_dset ckey_eqb ckey_t ckey_s), A1.
        change (b, a) with (swap (a, b)). rewrite A2. reflexivity.
  Qed.

  Lemma sides_apart r : (x1 r < x2 r)%Q -> (y1 r < y2 r)%Q -> apart (sides r).
  Proof.
    intros Lx Ly. destruct r as [a b c d]. cbn [Refine_Model.x1 Refine_Model.x2 Refine_Model.y1 Refine_Model.y2] in *.
    assert (K : forall k k', ~ (ceq (fst k) (fst k') /\ ceq (snd k) (snd k')) -> ckey_eqb k k' = false).
    { intros k k' N. destruct (ckey_eqb k k') eqn:X; [|reflexivity]. apply ckey_iff in X. contradiction. }
    cbn [sides apart In swap fst snd Refine_Model.x1 Refine_Model.x2 Refine_Model.y1 Refine_Model.y2].
    repeat match goal with |- _ /\ _ => split end; try exact I;
      try (apply K; unfold swap; cbn [fst snd]; unfold ceq; cbn [re im fst snd]; intros [[? ?] [? ?]]; Lqa.lra);
      intros e HE; repeat (destruct HE as [<-|HE]); try contradiction;
      (split; apply K; unfold swap; cbn [fst snd]; unfold ceq; cbn [re im fst snd]; intros [[? ?] [? ?]]; Lqa.lra).
  Qed.

  (** What the four sides give, and what is remembered. *)
  Lemma rectangle_values r c ls c' ls' zs m : (x1 r < x2 r)%Q -> (y1 r < y2 r)%Q ->
    nphase line r (c, ls) = ((c', ls'), zs, Ok m) ->
    exists vs, Forall2 (fun e v => match remembered c e with
        | Some w => v = w
        | None => (exists l0 l1 z0, line (fst e) (snd e) l0 = (l1, z0, Ok v)) /\
                  dget ckey_eqb e c' = Some v /\ dget ckey_eqb (snd e, fst e) c' = Some (num_opp v)
        end) (sides r) vs /\
      (In NaN vs -> fst m = NaN) /\
      (forall qs, vs = map Fin qs -> exists q, fst m = Fin q /\ (q == total qs)%Q).
  Proof.
    intros Lx Ly H. unfold nphase in H. change (edges r) with (sides r) in H.
    destruct (nmoment_loop line (sides r) (Fin 0) (c, ls)) as [[st1 z1] [out|e]] eqn:R; [|discriminate].
    injection H as E1 E2 E3. subst st1 z1 m.
    destruct (loop_values _ _ _ _ _ _ _ _ (sides_apart r Lx Ly) R) as (vs & V1 & V2 & V3 & _). exists vs.
    split; [|split].
    - clear - V2 V3. revert V3. induction V2 as [|e v es vs H V2 IH]; intro V3; [constructor|].
      inversion V3 as [|e0 v0 es0 vs0 G V3']; subst. constructor; [|apply IH, V3'].
      destruct (remembered c e); [exact H|]. split; [exact H|exact G].
    - intro HN. cbn [fst]. rewrite V1. apply sum_nan. right. exact HN.
    - intros qs E. cbn [fst]. rewrite V1, E. destruct (sum_fin qs 0%Q) as (q & Q1 & Q2). exists q. split; [exact Q1|]. rewrite Q2. ring.
  Qed.

  (** A rectangle all of whose sides are remembered is not evaluated again. *)
  Lemma loop_remembered : forall es phi (c : ncache) (ls : LS) vs, Forall2 (fun e v => remembered c e = Some v) es vs ->
    nmoment_loop line es phi (c, ls) = ((c, ls), [], Ok (fold_left num_add vs phi)).
  Proof.
    induction es as [|[a b] es IH]; intros phi c ls vs H; inversion H as [|e v es0 vs0 G H']; subst; [reflexivity|].
    cbn [nmoment_loop fst]. rewrite remembered_eq in G. destruct (ntruthy (dget ckey_eqb (a, b) c)); [|discriminate].
    rewrite G. exact (IH _ _ _ _ H').
  Qed.

  Lemma rectangle_again r c ls c' ls' zs m : (x1 r < x2 r)%Q -> (y1 r < y2 r)%Q ->
    (forall e l l' z q, In e (sides r) -> line (fst e) (snd e) l = (l', z, Ok (Fin q)) -> ~ (q == 0)%Q) ->
    nphase line r (c, ls) = ((c', ls'), zs, Ok m) ->
    nphase line r (c', ls') = ((c', ls'), [], Ok m).
  Proof.
    intros Lx Ly NZ H. unfold nphase in *. change (edges r) with (sides r) in *.
    destruct (nmoment_loop line (sides r) (Fin 0) (c, ls)) as [[st1 z1] [out|e]] eqn:R; [|discriminate].
    injection H as E1 E2 E3. subst st1 z1 m.
    destruct (loop_values _ _ _ _ _ _ _ _ (sides_apart r Lx Ly) R) as (vs & V1 & V2 & V3 & _ & V5).
    rewrite (loop_remembered (sides r) (Fin 0) c' ls' vs); [rewrite V1; reflexivity|].
    assert (G : forall es vs, Forall2 (fun e v => match remembered c e with Some w => v = w | None => asked e v end) es vs ->
      Forall2 (fun e v => match remembered c e with Some _ => True
         | None => dget ckey_eqb e c' = Some v /\ dget ckey_eqb (swap e) c' = Some (num_opp v) end) es vs ->
      (forall e l l' z q, In e es -> line (fst e) (snd e) l = (l', z, Ok (Fin q)) -> ~ (q == 0)%Q) ->
      (forall e, In e es -> remembered c e <> None -> dget ckey_eqb e c' = dget ckey_eqb e c) ->
      Forall2 (fun e v => remembered c' e = Some v) es vs).
    { clear. induction es as [|e es IH]; intros vs V2 V3 NZ V5; inversion V2 as [|e0 v0 es0 vs0 H2 V2']; subst; [constructor|].
      inversion V3 as [|e1 v1 es1 vs1 H3 V3']; subst. constructor.
      - destruct (remembered c e) as [w|] eqn:RM.
        + subst v0. pose proof (V5 e (or_introl eq_refl) ltac:(rewrite RM; discriminate)) as X.
          unfold remembered in *. rewrite X. exact RM.
        + destruct H2 as (l0 & l1 & z0 & H2). destruct H3 as [H3 _]. unfold remembered. rewrite H3. destruct v0 as [q| | |]; try reflexivity.
          destruct (Qeq_bool q 0) eqn:Z0; [|reflexivity]. apply Qeq_bool_iff in Z0.
          exfalso. exact (NZ e l0 l1 z0 q (or_introl eq_refl) H2 Z0).
      - apply IH; [exact V2'|exact V3'| |].
        + intros e' l l' z q He'. apply NZ. right. exact He'.
        + intros e' He'. apply V5. right. exact He'. }
    apply (G (sides r) vs V2 V3 NZ V5).
  Qed.
End Moment.
