(** Newton's identities over any commutative ring in which positive integers are
    invertible (equality up to a setoid). *)
From Coq Require Import Setoid Morphisms Ring List Arith Lia.
From Verif Require Import Poly_Model.
Import ListNotations.

Section Identities.
  Context {T : Type} (zero one : T) (add mul sub : T -> T -> T) (opp : T -> T) (divn : T -> nat -> T)
    (eqT : T -> T -> Prop).
  Context (Eqv : Equivalence eqT)
    (Padd : Proper (eqT ==> eqT ==> eqT) add) (Pmul : Proper (eqT ==> eqT ==> eqT) mul)
    (Popp : Proper (eqT ==> eqT) opp)
    (Pdivn : Proper (eqT ==> eq ==> eqT) divn)
    (RT : ring_theory zero one add mul sub opp eqT).

  Infix "==" := eqT (at level 70).
  Infix "+" := add.
  Infix "*" := mul.
  Infix "-" := sub.
  Notation "- x" := (opp x).

  Lemma req_ext : ring_eq_ext add mul opp eqT.
  Proof. constructor; assumption. Qed.
  Add Ring TR : RT (setoid Eqv req_ext).

  Local Instance Psub : Proper (eqT ==> eqT ==> eqT) sub.
  Proof.
    intros a b H c d K. rewrite (Rsub_def RT), (Rsub_def RT), H, K. reflexivity.
  Qed.

  Fixpoint nmul (n : nat) (x : T) : T :=
    match n with O => zero | S n' => x + nmul n' x end.
  Fixpoint power (x : T) (n : nat) : T :=
    match n with O => one | S n' => x * power x n' end.
  Fixpoint sumn (f : nat -> T) (n : nat) : T :=
    match n with O => zero | S n' => sumn f n' + f n' end.

  Context (divn_nmul : forall k x, divn (nmul (S k) x) (S k) == x).

  Local Instance Pnmul n : Proper (eqT ==> eqT) (nmul n).
  Proof. intros x y H. induction n as [|n IH]; cbn; [reflexivity|]. apply Padd; assumption. Qed.

  Lemma sumn_ext f g n : (forall i, i < n -> f i == g i) -> sumn f n == sumn g n.
  Proof.
    induction n as [|n IH]; intro H; cbn; [reflexivity|]. rewrite IH by (intros; apply H; lia).
    rewrite (H n) by lia. reflexivity.
  Qed.
  Lemma sumn_add f g n : sumn (fun i => f i + g i) n == sumn f n + sumn g n.
  Proof. induction n as [|n IH]; cbn; [ring|]. rewrite IH. ring. Qed.
  Lemma sumn_scale c f n : sumn (fun i => c * f i) n == c * sumn f n.
  Proof. induction n as [|n IH]; cbn; [ring|]. rewrite IH. ring. Qed.
  Lemma sumn_shift f n : sumn f (S n) == f 0 + sumn (fun i => f (S i)) n.
  Proof. induction n as [|n IH]; cbn in *; [ring|]. rewrite IH. ring. Qed.
  Lemma sumn_rev f n : sumn f n == sumn (fun i => f (n - 1 - i)%nat) n.
  Proof.
    induction n as [|n IH]; [reflexivity|].
    rewrite (sumn_shift (fun i => f (S n - 1 - i)%nat) n). cbn [sumn].
    replace (S n - 1 - 0)%nat with n by lia.
    rewrite IH. assert (H : sumn (fun i => f (n - 1 - i)%nat) n == sumn (fun i => f (S n - 1 - S i)%nat) n).
    { apply sumn_ext. intros i Hi. replace (S n - 1 - S i)%nat with (n - 1 - i)%nat by lia. reflexivity. }
    rewrite H. ring.
  Qed.

  Lemma nmul_add n x y : nmul n (x + y) == nmul n x + nmul n y.
  Proof. induction n as [|n IH]; cbn; [ring|]. rewrite IH. ring. Qed.
  Lemma nmul_mul n x y : nmul n (x * y) == x * nmul n y.
  Proof. induction n as [|n IH]; cbn; [ring|]. rewrite IH. ring. Qed.
  Lemma nmul_opp n x : nmul n (- x) == - nmul n x.
  Proof. induction n as [|n IH]; cbn; [ring|]. rewrite IH. ring. Qed.
  Lemma nmul_zero n : nmul n zero == zero.
  Proof. induction n as [|n IH]; cbn; [ring|]. rewrite IH. ring. Qed.

  Definition pred_of (f : nat -> T) (k : nat) : T := match k with O => zero | S k' => f k' end.

  (** [asym zs k]: coefficient of t^k in prod (1 - z t). *)
  Fixpoint asym (zs : list T) (k : nat) : T :=
    match zs with
    | [] => match k with O => one | S _ => zero end
    | z :: zs' => asym zs' k - z * pred_of (asym zs') k
    end.

  Fixpoint psum (zs : list T) (m : nat) : T :=
    match zs with [] => zero | z :: zs' => power z m + psum zs' m end.

  Lemma power_S z n : power z (S n) == z * power z n.
  Proof. reflexivity. Qed.

  Lemma telescope (f : nat -> T) z k : forall j, j <= k ->
    sumn (fun l => (f l - z * pred_of f l) * power z (k - l)%nat) j == pred_of f j * power z (k - j + 1)%nat.
  Proof.
    induction j as [|j IH]; intro Hj; cbn [sumn].
    - cbn. ring.
    - rewrite IH by lia. replace (k - j + 1)%nat with (S (k - j))%nat by lia.
      replace (k - S j + 1)%nat with (k - j)%nat by lia. rewrite power_S. cbn [pred_of]. ring.
  Qed.

  Lemma newton_identity zs : forall k, nmul k (asym zs k) + sumn (fun l => asym zs l * psum zs (k - l)%nat) k == zero.
  Proof.
    induction zs as [|z zs IH]; intro k.
    - assert (H : sumn (fun l => asym [] l * psum [] (k - l)%nat) k == zero).
      { induction k as [|k IHk]; [reflexivity|].
        assert (G : sumn (fun l => asym [] l * psum [] (S k - l)%nat) (S k) == sumn (fun l => zero * zero) (S k)).
        { apply sumn_ext. intros i _. cbn [psum]. ring. }
        rewrite G, sumn_scale. ring. }
      rewrite H. destruct k; cbn [asym]; [cbn; ring|]. rewrite nmul_zero. ring.
    - destruct k as [|k].
      { cbn. ring. }
      set (a := asym zs) in *. set (p := psum zs) in *.
      assert (E1 : sumn (fun l => asym (z :: zs) l * psum (z :: zs) (S k - l)%nat) (S k) ==
        sumn (fun l => a l * p (S k - l)%nat) (S k) +
        (sumn (fun l => - z * (pred_of a l * p (S k - l)%nat)) (S k) +
         sumn (fun l => (a l - z * pred_of a l) * power z (S k - l)%nat) (S k))).
      { rewrite <- !sumn_add. apply sumn_ext. intros l _. cbn [asym psum].
        fold a. fold p. ring. }
      rewrite E1. clear E1.
      rewrite telescope by lia. rewrite sumn_scale.
      assert (E2 : sumn (fun l => pred_of a l * p (S k - l)%nat) (S k) == sumn (fun l => a l * p (k - l)%nat) k).
      { rewrite sumn_shift. cbn [pred_of].
        assert (E3 : sumn (fun i => a i * p (S k - S i)%nat) k == sumn (fun l => a l * p (k - l)%nat) k).
        { apply sumn_ext. intros i _. replace (S k - S i)%nat with (k - i)%nat by lia. reflexivity. }
        rewrite E3. ring. }
      rewrite E2. replace (S k - S k + 1)%nat with 1 by lia. cbn [pred_of power].
      pose proof (IH (S k)) as H1. pose proof (IH k) as H2. fold a in H1, H2. fold p in H1, H2.
      assert (E4 : nmul (S k) (asym (z :: zs) (S k)) == nmul (S k) (a (S k)) - z * (a k + nmul k (a k))).
      { cbn [asym pred_of]. fold a.
        transitivity (nmul (S k) (a (S k)) + nmul (S k) (- z * a k)).
        - rewrite <- nmul_add. apply Pnmul. ring.
        - rewrite nmul_mul. cbn [nmul]. ring. }
      rewrite E4.
      assert (E5 : nmul (S k) (a (S k)) == - sumn (fun l => a l * p (S k - l)%nat) (S k)).
      { transitivity (nmul (S k) (a (S k)) + sumn (fun l => a l * p (S k - l)%nat) (S k)
          - sumn (fun l => a l * p (S k - l)%nat) (S k)); [ring|]. rewrite H1. ring. }
      assert (E6 : nmul k (a k) == - sumn (fun l => a l * p (k - l)%nat) k).
      { transitivity (nmul k (a k) + sumn (fun l => a l * p (k - l)%nat) k
          - sumn (fun l => a l * p (k - l)%nat) k); [ring|]. rewrite H2. ring. }
      rewrite E5, E6. ring.
  Qed.

  (** Unsigned version. *)
  Fixpoint sgn (k : nat) (x : T) : T := match k with O => x | S k' => - sgn k' x end.
  Local Instance Psgn k : Proper (eqT ==> eqT) (sgn k).
  Proof. intros x y H. induction k as [|k IH]; cbn; [exact H|]. rewrite IH. reflexivity. Qed.
  Lemma sgn_mul k x y : sgn k (x * y) == sgn k x * y.
  Proof. induction k as [|k IH]; cbn; [reflexivity|]. rewrite IH. ring. Qed.
  Lemma sgn_sgn k x : sgn k (sgn k x) == x.
  Proof.
    induction k as [|k IH]; cbn; [reflexivity|].
    assert (H : forall j y, sgn j (- y) == - sgn j y).
    { induction j as [|j IHj]; intro y; cbn; [reflexivity|]. rewrite IHj. reflexivity. }
    rewrite H, IH. ring.
  Qed.
  Lemma sgn_opp j y : sgn j (- y) == - sgn j y.
  Proof. induction j as [|j IHj]; cbn; [reflexivity|]. rewrite IHj. reflexivity. Qed.
  Lemma sgn_plus i j x : sgn (i + j)%nat x == sgn i (sgn j x).
  Proof. induction i as [|i IH]; cbn; [reflexivity|]. rewrite IH. reflexivity. Qed.
  Lemma sgn_add k x y : sgn k (x + y) == sgn k x + sgn k y.
  Proof. induction k as [|k IH]; cbn; [reflexivity|]. rewrite IH. ring. Qed.
  Lemma sgn_sum k f n : sgn k (sumn f n) == sumn (fun i => sgn k (f i)) n.
  Proof.
    induction n as [|n IH]; cbn.
    - induction k as [|k IHk]; cbn; [reflexivity|]. rewrite IHk. ring.
    - rewrite sgn_add, IH. reflexivity.
  Qed.
  Lemma sgn_nmul k n x : sgn k (nmul n x) == nmul n (sgn k x).
  Proof. induction k as [|k IH]; cbn; [reflexivity|]. rewrite IH, nmul_opp. reflexivity. Qed.

  Definition esym (zs : list T) (k : nat) : T := sgn k (asym zs k).

  Lemma newton_unsigned zs k :
    nmul k (esym zs k) == sumn (fun i => sgn i (esym zs (k - 1 - i)%nat * psum zs (S i))) k.
  Proof.
    unfold esym. rewrite <- sgn_nmul.
    assert (H : nmul k (asym zs k) == - sumn (fun l => asym zs l * psum zs (k - l)%nat) k).
    { pose proof (newton_identity zs k) as H.
      transitivity (nmul k (asym zs k) + sumn (fun l => asym zs l * psum zs (k - l)%nat) k
          - sumn (fun l => asym zs l * psum zs (k - l)%nat) k); [ring|]. rewrite H. ring. }
    rewrite H, sgn_opp, sgn_sum. rewrite sumn_rev.
    transitivity (sumn (fun i => - (sgn k (asym zs (k - 1 - i)%nat * psum zs (k - (k - 1 - i))%nat))) k).
    { assert (G : forall f n, - sumn f n == sumn (fun i => - f i) n).
      { intros f n. induction n as [|n IHn]; cbn; [ring|]. rewrite <- IHn. ring. }
      rewrite G. reflexivity. }
    apply sumn_ext. intros i Hi. replace (k - (k - 1 - i))%nat with (S i) by lia.
    rewrite !sgn_mul. rewrite <- sgn_plus. replace (i + (k - 1 - i))%nat with (k - 1)%nat by lia.
    destruct k as [|k]; [lia|]. replace (S k - 1 - i)%nat with (k - i)%nat by lia.
    replace (S k - 1)%nat with k by lia. cbn [sgn]. ring.
  Qed.

  (** The inner loop computes that sum.  [rc] lists c_{k-1}, ..., c_0. *)
  Definition sg (b : bool) (x : T) : T := if b then x else - x.

  Notation newton_sum := (newton_sum add mul opp).
  Notation newton_loop := (newton_loop zero add mul opp divn).
  Notation alternate := (alternate opp).

  Lemma newton_sum_acc b rc ms t : newton_sum b rc ms t == t + newton_sum b rc ms zero.
  Proof.
    revert b ms t. induction rc as [|c rc IH]; intros b ms t; cbn; [ring|].
    destruct ms as [|m ms]; [ring|].
    rewrite (IH _ _ (t + _)). rewrite (IH _ _ (zero + _)). ring.
  Qed.

  Definition leq (l1 l2 : list T) : Prop := Forall2 eqT l1 l2.

  Lemma leq_refl l : leq l l.
  Proof. induction l; constructor; auto. reflexivity. Qed.

  Lemma leq_trans l1 : forall l2 l3, leq l1 l2 -> leq l2 l3 -> leq l1 l3.
  Proof.
    induction l1 as [|x l1 IH]; intros l2 l3 H1 H2; inversion H1; subst; inversion H2; subst; constructor.
    - etransitivity; eassumption.
    - eapply IH; eassumption.
  Qed.

  Lemma newton_sum_ext rc : forall b rc' ms ms' t t', leq rc rc' -> leq ms ms' -> t == t' ->
    newton_sum b rc ms t == newton_sum b rc' ms' t'.
  Proof.
    induction rc as [|c rc IH]; intros b rc' ms ms' t t' H1 H2 Ht.
    - inversion H1; subst. exact Ht.
    - inversion H1 as [|? c' ? rc2 Hc Hrc]; subst. inversion H2 as [|m m' ms1 ms1' Hm Hms]; subst; [exact Ht|].
      cbn. apply IH; try assumption. apply Padd; [exact Ht|].
      destruct b; [|apply Popp]; apply Pmul; assumption.
  Qed.

  Lemma newton_sum_spec (f : nat -> T) (g : nat -> T) : forall k b j ms,
    (forall i, i < k -> nth_error ms i = Some (g (j + i)%nat)) ->
    newton_sum b (map (fun i => f (k - 1 - i)%nat) (seq 0 k)) ms zero ==
    sumn (fun i => sg (if Nat.even i then b else negb b) (f (k - 1 - i)%nat * g (j + i)%nat)) k.
  Proof.
    induction k as [|k IH]; intros b j ms Hms; [cbn; reflexivity|].
    destruct ms as [|m ms]; [specialize (Hms 0 ltac:(lia)); discriminate|].
    cbn [seq map newton_sum]. rewrite newton_sum_acc.
    rewrite sumn_shift.
    assert (Hm : m = g (j + 0)%nat) by (specialize (Hms 0 ltac:(lia)); cbn in Hms; congruence).
    assert (E : map (fun i => f (S k - 1 - i)%nat) (seq 1 k) = map (fun i => f (k - 1 - i)%nat) (seq 0 k)).
    { rewrite <- seq_shift, map_map. apply map_ext_in. intros i Hi. f_equal. lia. }
    rewrite E. rewrite (IH (negb b) (S j) ms).
    2:{ intros i Hi. specialize (Hms (S i) ltac:(lia)). cbn in Hms. rewrite Hms. do 2 f_equal. lia. }
    subst m. change (Nat.even 0) with true. cbv iota.
    assert (E2 : sumn (fun i => sg (if Nat.even i then negb b else negb (negb b))
                   (f (k - 1 - i)%nat * g (S j + i)%nat)) k ==
                 sumn (fun i => sg (if Nat.even (S i) then b else negb b)
                   (f (S k - 1 - S i)%nat * g (j + S i)%nat)) k).
    { apply sumn_ext. intros i Hi. rewrite Nat.even_succ, <- Nat.negb_even.
      replace (S k - 1 - S i)%nat with (k - 1 - i)%nat by lia. replace (S j + i)%nat with (j + S i)%nat by lia.
      destruct (Nat.even i), b; reflexivity. }
    rewrite E2. destruct b; cbn [sg]; ring.
  Qed.

  Lemma sg_sgn i x : sg (if Nat.even i then true else negb true) x == sgn i x.
  Proof.
    induction i as [|i IH]; [reflexivity|].
    rewrite Nat.even_succ, <- Nat.negb_even. cbn [sgn]. rewrite <- IH.
    destruct (Nat.even i); cbn; ring.
  Qed.

  Lemma map_seq_S {A} (g : nat -> A) n : map g (seq 0 (S n)) = g 0 :: map (fun i => g (S i)) (seq 0 n).
  Proof. cbn [seq map]. f_equal. rewrite <- seq_shift, map_map. reflexivity. Qed.

  Lemma loop_spec zs (ms : list T) N :
    (forall i, i < N -> nth_error ms i = Some (psum zs (S i))) ->
    forall n k rc, Nat.add (S k) n = S N ->
    leq rc (map (fun i => esym zs (k - i)%nat) (seq 0 (S k))) ->
    leq (newton_loop n (S k) ms rc) (map (fun i => esym zs (N - i)%nat) (seq 0 (S N))).
  Proof.
    intros Hms. induction n as [|n IH]; intros k rc Hn Hrc; cbn [Poly_Model.newton_loop].
    - replace N with k by lia. exact Hrc.
    - apply (IH (S k)); [lia|].
      assert (E : map (fun i => esym zs (S k - i)%nat) (seq 0 (S (S k))) =
                  esym zs (S k) :: map (fun i => esym zs (k - i)%nat) (seq 0 (S k))).
      { rewrite map_seq_S. reflexivity. }
      rewrite E. constructor; [|exact Hrc].
      assert (E3 : newton_sum true rc ms zero ==
                   newton_sum true (map (fun i => esym zs (k - i)%nat) (seq 0 (S k))) ms zero).
      { apply newton_sum_ext; [exact Hrc|apply leq_refl|reflexivity]. }
      rewrite E3.
      assert (E4 : map (fun i => esym zs (k - i)%nat) (seq 0 (S k)) =
                   map (fun i => esym zs (S k - 1 - i)%nat) (seq 0 (S k))).
      { apply map_ext. intro i. f_equal. lia. }
      rewrite E4. rewrite (newton_sum_spec (esym zs) (fun i => psum zs (S i)) (S k) true 0 ms)
        by (intros i Hi; apply Hms; lia).
      rewrite <- (divn_nmul k (esym zs (S k))). apply Pdivn; [|reflexivity].
      rewrite newton_unsigned. apply sumn_ext. intros i _. rewrite sg_sgn. reflexivity.
  Qed.

  Lemma alternate_spec (f : nat -> T) : forall n j b,
    alternate b (map (fun i => f (j + i)%nat) (seq 0 n)) =
    map (fun i => sg (if Nat.even i then b else negb b) (f (j + i)%nat)) (seq 0 n).
  Proof.
    induction n as [|n IH]; intros j b; [reflexivity|]. cbn [seq map Poly_Model.alternate Nat.even].
    f_equal.
    assert (E : map (fun i => f (j + i)%nat) (seq 1 n) = map (fun i => f (S j + i)%nat) (seq 0 n)).
    { rewrite <- seq_shift, map_map. apply map_ext. intro i. f_equal. lia. }
    rewrite E, IH. rewrite <- (seq_shift n 0), map_map. apply map_ext. intro i.
    rewrite Nat.even_succ, <- Nat.negb_even. replace (S j + i)%nat with (j + S i)%nat by lia.
    destruct (Nat.even i), b; reflexivity.
  Qed.

  Lemma alternate_ext l : forall b l', leq l l' -> leq (alternate b l) (alternate b l').
  Proof.
    induction l as [|x l IH]; intros b l' H; inversion H as [|? y ? l2 Hx Hl]; subst; cbn; constructor.
    - destruct b; [|apply Popp]; exact Hx.
    - apply IH, Hl.
  Qed.

  Lemma leq_rev l l' : leq l l' -> leq (rev l) (rev l').
  Proof.
    induction 1 as [|x y l l' H1 H2 IH]; cbn; [constructor|].
    apply Forall2_app; [exact IH|]. constructor; [exact H1|constructor].
  Qed.

  Lemma coefficients_spec zs (ms : list T) :
    length ms = length zs ->
    (forall i, i < length ms -> nth_error ms i = Some (psum zs (S i))) ->
    leq (coefficientsFromMoments zero one add mul opp divn ms)
        (map (fun i => asym zs (length zs - i)%nat) (seq 0 (S (length zs)))).
  Proof.
    intros HL Hms. unfold coefficientsFromMoments.
    assert (E0 : esym zs 0 == one).
    { unfold esym. cbn [sgn]. clear - Eqv Padd Pmul Popp RT. induction zs as [|z zs IH]; cbn; [reflexivity|]. rewrite IH. ring. }
    assert (H : leq (newton_loop (length ms) 1 ms [one])
                    (map (fun i => esym zs (length ms - i)%nat) (seq 0 (S (length ms))))).
    { apply (loop_spec zs ms (length ms) Hms (length ms) 0); [reflexivity|].
      cbn. constructor; [symmetry; exact E0|constructor]. }
    rewrite HL in *. set (n := length zs) in *.
    apply leq_rev in H.
    assert (R : forall (f : nat -> T) n, rev (map (fun i => f (n - i)%nat) (seq 0 (S n))) = map f (seq 0 (S n))).
    { intros f m. induction m as [|m IHm]; [reflexivity|].
      assert (X : map (fun i => f (S m - i)%nat) (seq 0 (S (S m))) = f (S m) :: map (fun i => f (m - i)%nat) (seq 0 (S m))).
      { rewrite map_seq_S. reflexivity. }
      rewrite X. cbn [rev]. rewrite IHm. rewrite (seq_S (S m) 0), map_app. reflexivity. }
    rewrite (R (esym zs) n) in H.
    apply (alternate_ext _ true) in H.
    pose proof (alternate_spec (esym zs) (S n) 0 true) as AS. cbn [Nat.add] in AS.
    change (map (esym zs) (seq 0 (S n))) with (map (fun i => esym zs i) (seq 0 (S n))) in H.
    rewrite AS in H.
    apply leq_rev in H.
    assert (G : leq (map (fun i => sg (if Nat.even i then true else negb true) (esym zs i)) (seq 0 (S n)))
                    (map (asym zs) (seq 0 (S n)))).
    { clear -Eqv Padd Pmul Popp RT. induction (seq 0 (S n)) as [|i l IH]; cbn [map]; constructor; auto.
      rewrite sg_sgn. unfold esym. apply sgn_sgn. }
    apply leq_rev in G.
    assert (R2 : rev (map (asym zs) (seq 0 (S n))) = map (fun i => asym zs (n - i)%nat) (seq 0 (S n))).
    { rewrite <- (R (asym zs) n), rev_involutive. reflexivity. }
    rewrite <- R2.
    eapply leq_trans; [exact H|exact G].
  Qed.

  Lemma newton_loop_ext n : forall k ms ms' rc rc', leq ms ms' -> leq rc rc' ->
    leq (newton_loop n k ms rc) (newton_loop n k ms' rc').
  Proof.
    induction n as [|n IH]; intros k ms ms' rc rc' H1 H2; cbn [Poly_Model.newton_loop]; [exact H2|].
    apply IH; [exact H1|]. constructor; [|exact H2].
    apply Pdivn; [|reflexivity]. apply newton_sum_ext; [exact H2|exact H1|reflexivity].
  Qed.

  Lemma coefficients_ext ms ms' : leq ms ms' ->
    leq (coefficientsFromMoments zero one add mul opp divn ms)
        (coefficientsFromMoments zero one add mul opp divn ms').
  Proof.
    intro H. unfold coefficientsFromMoments.
    assert (L : length ms = length ms') by (clear -H; induction H; cbn; congruence).
    rewrite L. apply leq_rev, alternate_ext, leq_rev, newton_loop_ext; [exact H|apply leq_refl].
  Qed.

  (** Horner evaluation of the coefficient list is the product of linear factors. *)
  Fixpoint horner (l : list T) (x : T) : T :=
    match l with [] => zero | c :: l' => c + x * horner l' x end.
  Fixpoint prod_lin (zs : list T) (x : T) : T :=
    match zs with [] => one | z :: zs' => (x - z) * prod_lin zs' x end.

  Lemma horner_map (f : nat -> T) x : forall n,
    horner (map f (seq 0 n)) x == sumn (fun i => f i * power x i) n.
  Proof.
    assert (G : forall n j, horner (map f (seq j n)) x == sumn (fun i => f (j + i)%nat * power x i) n).
    { induction n as [|n IH]; intro j; [reflexivity|].
      cbn [seq map horner]. rewrite IH, sumn_shift. cbn [power].
      replace (Nat.add j 0) with j by lia.
      rewrite <- sumn_scale.
      assert (E : sumn (fun i => x * (f (Nat.add (S j) i) * power x i)) n ==
                  sumn (fun i => f (Nat.add j (S i)) * (x * power x i)) n).
      { apply sumn_ext. intros i _. replace (Nat.add (S j) i) with (Nat.add j (S i)) by lia. ring. }
      rewrite E. ring. }
    intro n. rewrite (G n 0). reflexivity.
  Qed.

  Lemma asym_beyond zs : forall k, length zs < k -> asym zs k == zero.
  Proof.
    induction zs as [|z zs IH]; intros [|k] H; cbn in *; try lia; try reflexivity.
    rewrite (IH (S k)), (IH k) by lia. ring.
  Qed.

  Lemma prod_lin_asym zs x :
    prod_lin zs x == sumn (fun i => asym zs (length zs - i)%nat * power x i) (S (length zs)).
  Proof.
    induction zs as [|z zs IH]; [cbn; ring|].
    cbn [prod_lin length]. rewrite IH. set (n := length zs) in *. set (a := asym zs) in *.
    assert (E : sumn (fun i => asym (z :: zs) (S n - i)%nat * power x i) (S (S n)) ==
      sumn (fun i => a (S n - i)%nat * power x i) (S (S n)) +
      - z * sumn (fun i => pred_of a (S n - i)%nat * power x i) (S (S n))).
    { rewrite <- sumn_scale, <- sumn_add. apply sumn_ext. intros i _. cbn [asym]. fold a. ring. }
    rewrite E.
    assert (E1 : sumn (fun i => a (Nat.sub (S n) i) * power x i) (S (S n)) ==
                 x * sumn (fun i => a (Nat.sub n i) * power x i) (S n)).
    { rewrite sumn_shift. cbn [power]. rewrite <- sumn_scale.
      assert (Z : a (Nat.sub (S n) 0) == zero) by (apply asym_beyond; unfold n; lia).
      rewrite Z.
      assert (W : sumn (fun i => a (Nat.sub (S n) (S i)) * (x * power x i)) (S n) ==
                  sumn (fun i => x * (a (Nat.sub n i) * power x i)) (S n)).
      { apply sumn_ext. intros i _. replace (Nat.sub (S n) (S i)) with (Nat.sub n i) by lia. ring. }
      rewrite W. ring. }
    assert (E2 : sumn (fun i => pred_of a (Nat.sub (S n) i) * power x i) (S (S n)) ==
                 sumn (fun i => a (Nat.sub n i) * power x i) (S n)).
    { change (sumn ?f (S (S n))) with (sumn f (S n) + f (S n)).
      cbv beta. rewrite Nat.sub_diag. cbn [pred_of].
      assert (W : sumn (fun i => pred_of a (Nat.sub (S n) i) * power x i) (S n) ==
                  sumn (fun i => a (Nat.sub n i) * power x i) (S n)).
      { apply sumn_ext. intros i Hi. replace (Nat.sub (S n) i) with (S (Nat.sub n i)) by lia. reflexivity. }
      rewrite W. ring. }
    rewrite E1, E2. ring.
  Qed.

  Lemma horner_ext l l' x : leq l l' -> horner l x == horner l' x.
  Proof.
    induction 1 as [|a b l l' H1 H2 IH]; cbn; [reflexivity|]. rewrite H1, IH. reflexivity.
  Qed.

  Lemma newton_horner zs ms x : length ms = length zs ->
    (forall i, i < length ms -> nth_error ms i = Some (psum zs (S i))) ->
    horner (coefficientsFromMoments zero one add mul opp divn ms) x == prod_lin zs x.
  Proof.
    intros H1 H2. rewrite (horner_ext _ _ x (coefficients_spec zs ms H1 H2)).
    rewrite (horner_map (fun i => asym zs (length zs - i)%nat)). symmetry. apply prod_lin_asym.
  Qed.
End Identities.
