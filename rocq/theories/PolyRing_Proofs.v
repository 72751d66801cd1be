(** Newton's identities over any commutative ring with division by positive integers. *)
From Coq Require Import Setoid Morphisms Ring List Arith Lia.
From Verif Require Import Poly_Model PolyRing_Spec NewtonId_Proofs.
Import ListNotations.

Section Generic.
  Context {T : Type} (zero one : T) (add mul sub : T -> T -> T) (opp : T -> T) (divn : T -> nat -> T)
    (eqT : T -> T -> Prop).
  Context (Eqv : Equivalence eqT)
    (Padd : Proper (eqT ==> eqT ==> eqT) add) (Pmul : Proper (eqT ==> eqT ==> eqT) mul)
    (Popp : Proper (eqT ==> eqT) opp) (Pdivn : Proper (eqT ==> eq ==> eqT) divn)
    (RT : ring_theory zero one add mul sub opp eqT).
  Context (divn_times : forall k x, eqT (divn (ring_times zero add (S k) x) (S k)) x).
  Add Ring TR2 : RT (setoid Eqv (req_ext add mul opp eqT Padd Pmul Popp)).
  Local Instance Psub2 : Proper (eqT ==> eqT ==> eqT) sub.
  Proof.
    intros a b H c d K. rewrite (Rsub_def RT), (Rsub_def RT), H, K. reflexivity.
  Qed.

  Notation asymT := (asym zero one mul sub).
  Notation times_linear := (ring_times_linear zero add mul opp).
  Notation monic := (ring_monic zero one add mul opp).
  Notation poly_add := (ring_poly_add add).

  Lemma g_times_nmul n x : ring_times zero add n x = nmul zero add n x.
  Proof. induction n as [|n IH]; cbn; [reflexivity|]. rewrite IH. reflexivity. Qed.

  Lemma g_poly_add_nth a : forall b i, nth i (poly_add a b) zero =
    match nth_error a i, nth_error b i with
    | Some x, Some y => add x y | Some x, None => x | None, Some y => y | None, None => zero end.
  Proof.
    induction a as [|x a IH]; intros b i.
    - cbn [ring_poly_add]. replace (nth_error [] i) with (@None T) by (destruct i; reflexivity).
      rewrite <- nth_default_eq. unfold nth_default. reflexivity.
    - destruct b as [|y b].
      + cbn [ring_poly_add]. rewrite <- nth_default_eq. unfold nth_default.
        replace (nth_error [] i) with (@None T) by (destruct i; reflexivity). reflexivity.
      + destruct i as [|i]; cbn; [reflexivity|]. apply IH.
  Qed.
  Lemma g_poly_add_len a : forall b, length (poly_add a b) = Nat.max (length a) (length b).
  Proof. induction a as [|x a IH]; intros [|y b]; cbn; auto. Qed.
  Lemma g_times_linear_len z p : length (times_linear z p) = S (length p).
  Proof. unfold ring_times_linear. rewrite g_poly_add_len, map_length. cbn [length]. lia. Qed.
  Lemma g_monic_len zs : length (monic zs) = S (length zs).
  Proof.
    induction zs as [|z zs IH]; [reflexivity|]. cbn [ring_monic fold_right length].
    rewrite g_times_linear_len. f_equal. exact IH.
  Qed.

  Lemma g_times_linear_nth z p i : eqT (nth i (times_linear z p) zero)
    (sub (match i with O => zero | S j => nth j p zero end) (mul z (nth i p zero))).
  Proof.
    unfold ring_times_linear. rewrite g_poly_add_nth. rewrite nth_error_map.
    destruct i as [|i].
    - cbn [nth_error]. destruct p as [|a p]; cbn [nth_error nth option_map]; ring.
    - change (nth_error (zero :: p) (S i)) with (nth_error p i).
      rewrite <- (nth_default_eq i p zero), <- (nth_default_eq (S i) p zero). unfold nth_default.
      destruct (nth_error p (S i)) as [a|] eqn:Ea; cbn [option_map].
      + destruct (nth_error p i) as [b|] eqn:Eb.
        * ring.
        * exfalso. apply nth_error_None in Eb. assert (S i < length p)%nat by (apply nth_error_Some; congruence). lia.
      + destruct (nth_error p i) as [b|] eqn:Eb; ring.
  Qed.

  Lemma g_monic_nth zs : forall i, (i <= length zs)%nat ->
    eqT (nth i (monic zs) zero) (asymT zs (length zs - i)).
  Proof.
    induction zs as [|z zs IH]; intros i Hi.
    - cbn in Hi. replace i with 0%nat by lia. reflexivity.
    - cbn [ring_monic fold_right]. fold (monic zs). rewrite g_times_linear_nth.
      cbn [length] in *.
      destruct i as [|i].
      + rewrite (IH 0%nat) by lia. rewrite !Nat.sub_0_r. cbn [asym pred_of].
        rewrite (asym_beyond zero one add mul sub opp eqT _ _ _ _ RT zs (S (length zs))) by lia.
        reflexivity.
      + rewrite (IH i) by lia. replace (S (length zs) - S i)%nat with (length zs - i)%nat by lia.
        cbn [asym].
        destruct (Nat.eq_dec i (length zs)) as [E|E].
        * subst i. rewrite nth_overflow by (rewrite g_monic_len; lia). rewrite Nat.sub_diag. reflexivity.
        * rewrite (IH (S i)) by lia. unfold pred_of.
          replace (length zs - i)%nat with (S (length zs - S i)) by lia. reflexivity.
  Qed.

  Lemma g_eq_nth p q : length p = length q ->
    (forall i, (i < length p)%nat -> eqT (nth i p zero) (nth i q zero)) -> Forall2 eqT p q.
  Proof.
    revert q. induction p as [|a p IH]; intros [|b q] HL H; try discriminate; [constructor|].
    constructor; [apply (H 0%nat); cbn; lia|]. apply IH; [cbn in HL; lia|].
    intros i Hi. apply (H (S i)). cbn. lia.
  Qed.

  Lemma generic_coefficients zs :
    Forall2 eqT (coefficientsFromMoments zero one add mul opp divn (ring_power_sums zero one add mul zs))
                (monic zs).
  Proof.
    assert (L : length (ring_power_sums zero one add mul zs) = length zs)
      by (unfold ring_power_sums; rewrite map_length, seq_length; reflexivity).
    assert (D : forall k x, eqT (divn (nmul zero add (S k) x) (S k)) x).
    { intros k x. rewrite <- g_times_nmul. apply divn_times. }
    assert (P : forall l k, ring_sum zero add (map (fun z => ring_pow one mul z k) l) = psum zero one add mul l k).
    { intros l k. unfold ring_sum. induction l as [|z l IH]; [reflexivity|]. cbn [map fold_right psum]. rewrite IH. apply (f_equal (fun x => add x (psum zero one add mul l k))).
      clear. induction k as [|k IH]; cbn; [reflexivity|]. rewrite IH. reflexivity. }
    eapply (leq_trans eqT Eqv).
    - apply (coefficients_spec zero one add mul sub opp divn eqT _ _ _ _ _ RT D zs _ L).
      intros i Hi. rewrite L in Hi. unfold ring_power_sums. rewrite nth_error_map.
      rewrite (nth_error_nth' _ 0%nat) by (rewrite seq_length; exact Hi).
      cbn [option_map]. rewrite seq_nth by exact Hi. rewrite P. reflexivity.
    - apply g_eq_nth.
      + rewrite map_length, seq_length, g_monic_len. reflexivity.
      + intros i Hi. rewrite map_length, seq_length in Hi.
        rewrite (nth_indep _ zero (asymT zs (length zs - 0))) by (rewrite map_length, seq_length; exact Hi).
        rewrite (map_nth (fun i => asymT zs (length zs - i)) (seq 0 (S (length zs))) 0%nat i).
        rewrite seq_nth by exact Hi. cbn [Nat.add]. symmetry. apply g_monic_nth. lia.
  Qed.
End Generic.
