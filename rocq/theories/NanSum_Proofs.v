(** * Proofs for C86 *)
From Coq Require Import Reals Qreals.
From Verif Require Import PyBase Cache_Proofs Container_Model Refine_Model Cache_Model Sum_Model Sum_Spec Sum_Proofs Sum_Proofs2 Sum_Proofs3
  Sum_Proofs4 Nan_Model NanRefine_Model NanSum_Model NanSum_Spec.
From Coq Require Import Lra Lqa.
Open Scope Z_scope.
Open Scope list_scope.

(** ** Phases that may be nan *)
Lemma asum_none l : forall a, fold_left oadd l a = None <-> a = None \/ In None l.
Proof.
  induction l as [|x l IH]; intro a; cbn [fold_left In]; [tauto|].
  rewrite IH. destruct a as [a|], x as [x|]; cbn [oadd]; split; intuition congruence.
Qed.
Lemma asum_some l : forall a, fold_left oadd (map Some l) (Some a) = Some (fold_left Rplus l a).
Proof. induction l as [|x l IH]; intro a; [reflexivity|]. cbn [map fold_left oadd]. apply IH. Qed.

Lemma ophase_none f z z' : ophase_step f z z' = None <-> undefined f z \/ undefined f z'.
Proof. unfold ophase_step, undefined. destruct (f z), (f z'); intuition congruence. Qed.

Lemma increments_none f zs : (2 <= List.length zs)%nat ->
  (In None (increments (ophase_step f) zs) <-> Exists (undefined f) zs).
Proof.
  induction zs as [|z zs IH]; intro L; [cbn in L; lia|].
  destruct zs as [|z' zs]; [cbn in L; lia|].
  change (increments (ophase_step f) (z :: z' :: zs)) with (ophase_step f z z' :: increments (ophase_step f) (z' :: zs)).
  destruct zs as [|z'' zs].
  - cbn [increments In]. rewrite !Exists_cons, Exists_nil. split.
    + intros [H|[]]. apply ophase_none in H. tauto.
    + intros [H|[H|[]]]; left; apply ophase_none; tauto.
  - rewrite Exists_cons. rewrite <- IH by (cbn; lia). cbn [In]. split.
    + intros [H|H]; [|tauto]. apply ophase_none in H as [H|H]; [tauto|right].
      apply IH; [cbn; lia|]. left. exact H.
    + intros [H|H]; [left; apply ophase_none; tauto|right; exact H].
Qed.

Lemma increments_some f : forall zs vs, map f zs = map Some vs -> increments (ophase_step f) zs = map Some (steps vs).
Proof.
  induction zs as [|z zs IH]; intros [|v vs] H; try discriminate; [reflexivity|].
  destruct zs as [|z' zs], vs as [|v' vs]; try discriminate; [reflexivity|].
  change (increments (ophase_step f) (z :: z' :: zs)) with (ophase_step f z z' :: increments (ophase_step f) (z' :: zs)).
  change (steps (v :: v' :: vs)) with (arctan2 (quotient v' v) :: steps (v' :: vs)).
  injection H as H1 H2 H3. cbn [map]. f_equal.
  - unfold ophase_step. rewrite H1, H2. reflexivity.
  - apply IH. cbn [map]. rewrite H2, H3. reflexivity.
Qed.

(** ** Points are never dropped from the array *)
Section Keep.
  Context {A : Type} (azero : A).
  Variables (fz : cplx -> bool) (dphase : cplx -> cplx -> A) (large : A -> bool)
            (factor : nat -> A -> nat) (close : cplx -> cplx -> bool) (numPts : nat) (precision : Z * Z).

  Lemma phi_loop_keeps : forall fuel idx zs phis zeros zs' phis' zeros' z,
    phi_loop azero fz dphase large factor close numPts precision fuel idx zs phis zeros = Gen zs' phis' zeros' ->
    In z zs -> In z zs'.
  Proof.
    induction fuel as [|fuel IH]; intros idx zs phis zeros zs' phis' zeros' z H HI; cbn [phi_loop] in H.
    { destruct (first_index large _); [discriminate|]. injection H as <- <- <-. exact HI. }
    destruct (first_index large phis) as [k|].
    2:{ injection H as <- <- <-. exact HI. }
    destruct (close _ _). { injection H as <- <- <-. exact HI. }
    destruct (Nat.ltb _ _). { injection H as <- <- <-. exact HI. }
    destruct (genFuncArr _ _ _ _ _ _) as [[zRef found]|]; [|discriminate].
    apply (IH _ _ _ _ _ _ _ z H). rewrite <- (firstn_skipn (S k) zs) in HI.
    apply in_app_or in HI. apply in_or_app. destruct HI as [HI|HI]; [left; exact HI|right; apply in_or_app; right; exact HI].
  Qed.
End Keep.

Lemma orefinement_large delta : (0 < delta)%R ->
  forall i p, oat_least delta p = true -> (3 <= orefinement delta (S i) p)%nat.
Proof. intros H i [p|] L; [exact (refinement_large delta H i p L)|discriminate]. Qed.

Section Line.
  Variables (f : cplx -> option cR) (delta : R) (mp : Q) (n : nat) (prec : Z * Z).
  Hypothesis delta_pos : (0 < delta)%R.
  Hypothesis n_big : (2 <= n)%nat.

  Notation genPhi := (genPhiArr (Some 0%R) (ovanishes f) (ophase_step f) (oat_least delta) (orefinement delta) (nearer mp) n prec).

  Lemma ofresh_line horiz level fuel t1 t2 st st' p : (t1 < t2)%Q -> unseen st horiz level ->
    osum_line f delta mp n prec fuel 0 (mkpoint horiz level t1) (mkpoint horiz level t2) st = (st', SumOk [] p) ->
    exists mid, let zs := mkpoint horiz level t1 :: mid ++ [mkpoint horiz level t2] in
      p = asum (Some 0%R) oadd (increments (ophase_step f) zs) /\ filter (ovanishes f) zs = [] /\
      chain (on_line (coord_of horiz) (other_of horiz) level ((t2 - t1) / inject_Z (Z.of_nat (n - 1)))) zs /\
      (forall z, In z (linspaceC (mkpoint horiz level t1) (mkpoint horiz level t2) n) -> In z zs).
  Proof.
    intros L HF H.
    assert (G : exists zs phis, genPhi fuel 0 (mkpoint horiz level t1) (mkpoint horiz level t2) = Gen zs phis [] /\
      p = asum (Some 0%R) oadd phis).
    { unfold osum_line, sumLine in H. destruct horiz; cbn [mkpoint re im fst snd] in *; unfold unseen in HF.
      - rewrite Qeq_bool_refl in H. rewrite retrieve_miss in H by assumption.
        destruct (genPhi fuel 0 _ _) as [zs phis found|e|] eqn:GE; [|congruence|congruence].
        injection H as <- -> <-. exists zs, phis. split; [reflexivity|reflexivity].
      - assert (E : Qeq_bool t1 t2 = false) by (apply Qeqb_false; Lqa.lra). rewrite E, Qeq_bool_refl in H.
        rewrite retrieve_miss in H by assumption.
        destruct (genPhi fuel 0 _ _) as [zs phis found|e|] eqn:GE; [|congruence|congruence].
        injection H as <- -> <-. exists zs, phis. split; [reflexivity|reflexivity]. }
    destruct G as (zs & phis & G & HP).
    set (h := ((t2 - t1) / inject_Z (Z.of_nat (n - 1)))%Q).
    assert (HN : (0 < inject_Z (Z.of_nat (n - 1)))%Q).
    { change 0%Q with (inject_Z 0). rewrite <- Zlt_Qlt. lia. }
    assert (HH : (h * inject_Z (Z.of_nat (n - 1)) == t2 - t1)%Q) by (unfold h; field; Lqa.lra).
    destruct (genPhi_chain (Some 0%R) (ovanishes f) (ophase_step f) (oat_least delta) (orefinement delta) (nearer mp) n prec
      (orefinement_large delta delta_pos) (on_line (coord_of horiz) (other_of horiz) level h)
      (on_line_subdivide _ _ _ _ (axes_of horiz)) fuel (mkpoint horiz level t1) (mkpoint horiz level t2) zs phis n_big)
      as (C1 & C2 & C3 & mid & C4).
    - apply linspaceC_on_line; [apply axes_of| |exact n_big]. unfold on_line. rewrite HH.
      destruct horiz; cbn; repeat split; try reflexivity; Lqa.lra.
    - exact G.
    - exists mid. cbn zeta. subst phis zs. split; [exact HP|]. split; [exact C3|]. split; [exact C2|].
      intros z Hz. unfold genPhiArr in G. cbn [Z.eqb] in G.
      destruct (genFuncArr _ _ _ _ _ _) as [[z0 found]|] eqn:GF; [|discriminate].
      refine (phi_loop_keeps _ _ _ _ _ _ _ _ _ _ _ _ _ _ _ _ z G _).
      assert (found = []) as ->.
      { pose proof (genFuncArr_length _ _ _ _ _ _ _ _ GF) as LR.
        refine (match phi_loop_lengths _ _ _ _ _ _ _ _ (orefinement_large delta delta_pos) _ _ _ _ _ _ _ _ _ G with conj _ (conj _ (conj _ (conj _ (ex_intro _ l HI)))) => _ end).
        - unfold lengths. rewrite increments_length. lia.
        - symmetry in HI. apply app_eq_nil in HI as [HI _]. exact HI. }
      destruct (genFuncArr_unshifted _ _ _ _ _ _ _ GF) as [-> _]. exact Hz.
  Qed.
End Line.
