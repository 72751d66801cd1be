(** Roots of polynomials of degree at most three under perturbation of the coefficients. *)
From Coq Require Import Permutation Reals Psatz.
From Verif Require Import PyBase Zeros_Spec Sum_Spec Quad_Spec Moment_Spec Assoc_Spec Modulus.
Open Scope R_scope.

Lemma cR_ring : @ring_theory cR (0, 0) (1, 0) plus_cR times minus_cR (minus_cR (0, 0)) (@eq cR).
Proof.
  split; intros; apply injective_projections; unfold plus_cR, times, minus_cR; cbn [fst snd]; ring.
Qed.
Definition czero : cR := (0, 0).
Definition cone : cR := (1, 0).
Lemma cR_ring' : @ring_theory cR czero cone plus_cR times minus_cR (minus_cR czero) (@eq cR).
Proof. exact cR_ring. Qed.
Add Ring cR_ring_structure : cR_ring'.
Ltac cring := match goal with |- @eq _ ?a ?b => change (@eq cR a b) end;
  change (@pair R R 0 0) with czero; change (@pair R R 1 0) with cone; ring.

Definition evalR (c : list cR) (x : cR) : cR := fold_right (fun a acc => plus_cR a (times x acc)) (0, 0) c.

Lemma eval_add p : forall q x, evalR (add_coefficients p q) x = plus_cR (evalR p x) (evalR q x).
Proof.
  induction p as [|a p IH]; intros [|b q] x; cbn [add_coefficients evalR fold_right]; try cring.
  fold (evalR (add_coefficients p q) x). rewrite IH. unfold evalR. cring.
Qed.
Lemma eval_scale c p x : evalR (map (times c) p) x = times c (evalR p x).
Proof.
  induction p as [|a p IH]; cbn [map evalR fold_right]; [cring|].
  fold (evalR (map (times c) p) x). rewrite IH. unfold evalR. cring.
Qed.
Lemma eval_coefficients zs x : evalR (coefficients_of zs) x = product_of zs x.
Proof.
  induction zs as [|z zs IH]; cbn [coefficients_of product_of].
  - cbn. unfold plus_cR, times. cbn [fst snd]. f_equal; ring.
  - rewrite eval_add, eval_scale. cbn [evalR fold_right]. fold (evalR (coefficients_of zs) x). rewrite IH. cring.
Qed.

Lemma add_last_eq p : forall q, List.length p = List.length q -> forall x,
  exists c, add_coefficients p (q ++ [x]) = c ++ [x] /\ List.length c = List.length q.
Proof.
  induction p as [|a p IH]; intros q H x.
  - destruct q; [|discriminate]. exists []. auto.
  - destruct q as [|b q]; [discriminate|]. injection H as H.
    destruct (IH q H x) as (c & E & L). exists (plus_cR a b :: c). cbn. rewrite E, L. auto.
Qed.
Lemma coefficients_monic zs : exists c, coefficients_of zs = c ++ [(1, 0)] /\ List.length c = List.length zs.
Proof.
  induction zs as [|z zs (c & E & L)]; [exists []; auto|].
  cbn [coefficients_of]. cbv zeta. rewrite E.
  destruct (add_last_eq (map (times (minus_cR (0, 0) z)) (c ++ [(1, 0)])) ((0, 0) :: c)
    ltac:(rewrite map_length, app_length; exact (Nat.add_1_r _)) (1, 0)) as (c' & E' & L').
  exists c'. split; [exact E'|]. exact (eq_trans L' (f_equal S L)).
Qed.
Lemma coefficients_length zs : List.length (coefficients_of zs) = S (List.length zs).
Proof. destruct (coefficients_monic zs) as (c & -> & <-). rewrite app_length. exact (Nat.add_1_r _). Qed.

Fixpoint geom (n : nat) (t : R) : R := match n with O => 0 | S n => 1 + t * geom n t end.
Lemma eval_close h a b x u : Forall2 (fun p q => apart p q <= h) a b ->
  md (minus_cR (evalR (a ++ [u]) x) (evalR (b ++ [u]) x)) <= h * geom (List.length a) (md x).
Proof.
  intro H. induction H as [|p q a b H1 H2 IH].
  - cbn. replace (minus_cR _ _) with (0, 0) by cring. rewrite md_0. Lra.lra.
  - cbn [List.app evalR fold_right List.length geom].
    fold (evalR (a ++ [u]) x). fold (evalR (b ++ [u]) x).
    replace (minus_cR _ _) with (plus_cR (minus_cR p q) (times x (minus_cR (evalR (a ++ [u]) x) (evalR (b ++ [u]) x)))) by cring.
    eapply Rle_trans; [apply md_plus|]. rewrite md_times, <- apart_md.
    pose proof (md_pos x).
    assert (md x * md (minus_cR (evalR (a ++ [u]) x) (evalR (b ++ [u]) x)) <= md x * (h * geom (List.length a) (md x)))
      by (apply Rmult_le_compat_l; assumption).
    Lra.lra.
Qed.

Lemma F2_len {A B} (R : A -> B -> Prop) l l' : Forall2 R l l' -> List.length l = List.length l'.
Proof. induction 1; cbn; congruence. Qed.

Section Perturb.
  Variables (B h : R) (ws zs : list point).
  Hypothesis HB : 1 <= B.
  Hypothesis Hh : 0 <= h.
  Hypothesis Hclose : Forall2 (fun p q => apart p q <= h) (coefficients_of ws) (coefficients_of zs).
  Hypothesis Hzs : forall z, In z zs -> apart z (0, 0) <= B.

  Lemma same_length : List.length ws = List.length zs.
  Proof. pose proof (F2_len _ _ _ Hclose) as H. rewrite !coefficients_length in H. injection H as H. exact H. Qed.

  Lemma product_close x : md (minus_cR (product_of ws x) (product_of zs x)) <= h * geom (List.length zs) (md x).
  Proof.
    rewrite <- !eval_coefficients.
    destruct (coefficients_monic ws) as (a & Ea & La). destruct (coefficients_monic zs) as (b & Eb & Lb).
    pose proof Hclose as H. rewrite Ea, Eb in H. apply Forall2_app_inv_l in H.
    destruct H as (b1 & b2 & H1 & H2 & E). inversion H2 as [|x1 y1 l1 l2 _ H3 X1 X2]; subst. inversion H3; subst.
    apply app_inj_tail in E. destruct E as [<- <-].
    rewrite Ea, Eb. pose proof (eval_close h a b x (1, 0) H1) as X.
    assert (E : @List.length cR a = List.length zs) by (rewrite <- same_length; exact La). rewrite E in X. exact X.
  Qed.
  Lemma product_self l : forall x, In x l -> product_of l x = (0, 0).
  Proof.
    induction l as [|w l IH]; [intros x []|]. intros x [<-|H]; cbn [product_of].
    - cring.
    - rewrite (IH x H). cring.
  Qed.

  (** The product of distances. *)
  Definition dprod (l : list point) (x : point) : R := fold_right (fun w acc => apart x w * acc) 1 l.
  Lemma dprod_md l x : md (product_of l x) = dprod l x.
  Proof. induction l as [|w l IH]; cbn [product_of dprod fold_right]; [apply md_1|]. rewrite md_times, IH, <- apart_md. reflexivity. Qed.
  Lemma at_root w : In w ws -> dprod zs w <= h * geom (List.length zs) (md w).
  Proof.
    intro H. pose proof (product_close w) as X. rewrite (product_self ws w H), md_opp, dprod_md in X. exact X.
  Qed.
  Lemma at_zero z : In z zs -> dprod ws z <= h * geom (List.length zs) (md z).
  Proof.
    intro H. pose proof (product_close z) as X. rewrite (product_self zs z H) in X.
    replace (minus_cR (product_of ws z) (0, 0)) with (product_of ws z) in X by cring. rewrite dprod_md in X. exact X.
  Qed.

  (** The closest point of a list. *)
  Lemma closest (x : point) (l : list point) : l <> [] -> exists z, In z l /\ forall z', In z' l -> apart x z <= apart x z'.
  Proof.
    induction l as [|a l IH]; [congruence|intros _]. destruct l as [|b l].
    - exists a. split; [left; reflexivity|]. intros z' [<-|[]]. Lra.lra.
    - destruct IH as (z & Hz & M); [discriminate|].
      destruct (Rle_dec (apart x a) (apart x z)) as [L|L].
      + exists a. split; [left; reflexivity|]. intros z' [<-|H]; [Lra.lra|]. specialize (M z' H). Lra.lra.
      + exists z. split; [right; exact Hz|]. intros z' [<-|H]; [Lra.lra|]. exact (M z' H).
  Qed.
  Lemma dprod_lower (l : list point) (x : point) t : 0 <= t -> (forall z, In z l -> t <= apart x z) -> t ^ List.length l <= dprod l x.
  Proof.
    intros Ht. induction l as [|a l IH]; intro H; cbn [List.length pow dprod fold_right]; [Lra.lra|].
    apply Rmult_le_compat; [exact Ht|apply pow_le, Ht|apply H; left; reflexivity|].
    apply IH. intros z Hz. apply H. right. exact Hz.
  Qed.

  Variable g : R.
  Hypothesis Hg : 0 < g <= 1.
  Hypothesis Hhg : 12 * B ^ 2 * h <= g ^ List.length zs.
  Hypothesis Hlen : (1 <= List.length zs <= 3)%nat.

  Lemma h_small : let G := g ^ List.length zs in h <= G / 12 /\ h * B <= G / 12 /\ h * B ^ 2 <= G / 12.
  Proof.
    intro G. fold G in Hhg.
    assert (h * B <= h * B ^ 2) by (apply Rmult_le_compat_l; [exact Hh|Lra.nra]).
    assert (h * 1 <= h * B) by (apply Rmult_le_compat_l; assumption). Lra.lra.
  Qed.
  Lemma g_powers : g ^ 3 <= g ^ 2 /\ g ^ 3 <= g /\ 0 < g ^ 3 /\ g ^ 3 <= 1 /\ g ^ 2 <= g /\ 0 < g ^ 2.
  Proof. pose proof (pow_lt g 3 (proj1 Hg)). pose proof (pow_lt g 2 (proj1 Hg)). assert (g ^ 2 <= g) by Lra.nra. repeat split; Lra.nra. Qed.

  Lemma geom_upper t n : 0 <= t -> (n <= 3)%nat -> geom n t <= 1 + t + t ^ 2.
  Proof. intros Ht Hn. destruct n as [|[|[|[|n]]]]; cbn [geom]; [Lra.nra..|lia]. Qed.

  Lemma root_near w : In w ws -> exists z, In z zs /\ apart w z <= g.
  Proof.
    intro Hw. destruct (closest w zs) as (z & Hz & M); [intro E; rewrite E in Hlen; cbn in Hlen; lia|].
    exists z. split; [exact Hz|]. destruct (Rle_dec (apart w z) g) as [L|L]; [exact L|exfalso].
    apply Rnot_le_lt in L. set (t := apart w z) in *.
    pose proof (at_root w Hw) as X. pose proof (dprod_lower zs w t (apart_pos _ _) M) as Y.
    assert (Hmd : md w <= B + t).
    { pose proof (apart_tri w z (0, 0)) as T. specialize (Hzs z Hz). unfold md. fold t in T. Lra.lra. }
    pose proof h_small as (S1 & S2 & S3). pose proof g_powers as (G1 & G2 & G3 & G4 & G5 & G6). pose proof (md_pos w) as Hm.
    destruct (List.length zs) as [|[|[|[|n]]]]; [lia| | | |lia]; cbn [pow geom] in X, Y, S1, S2, S3.
    - Lra.lra.
    - assert (Z : h * (1 + md w * (1 + md w * 0)) <= h * (1 + B + t)) by (apply Rmult_le_compat_l; Lra.lra).
      destruct (Rle_dec t B) as [C|C].
      + assert (h * t <= h * B) by (apply Rmult_le_compat_l; Lra.lra).
        assert (g * g < t * t) by Lra.nra. Lra.lra.
      + assert (h * (1 + B + t) <= h * (3 * t)) by (apply Rmult_le_compat_l; Lra.lra).
        assert (t * t <= 3 * h * t) by Lra.lra. assert (t <= 3 * h) by Lra.nra. Lra.lra.
    - assert (Z : h * (1 + md w * (1 + md w * (1 + md w * 0))) <= h * (1 + (B + t) + (B + t) ^ 2)).
      { apply Rmult_le_compat_l; [exact Hh|]. assert (md w * md w <= (B + t) * (B + t)) by (apply Rmult_le_compat; Lra.lra). Lra.lra. }
      destruct (Rle_dec t B) as [C|C].
      + assert (h * (1 + (B + t) + (B + t) ^ 2) <= h * (12 * B ^ 2)).
        { apply Rmult_le_compat_l; [exact Hh|]. Lra.nra. }
        assert (g * (g * g) < t * (t * t)).
        { apply Rmult_gt_0_lt_compat; [Lra.nra|Lra.lra|exact L|Lra.nra]. } Lra.lra.
      + assert (h * (1 + (B + t) + (B + t) ^ 2) <= h * (12 * t ^ 2)).
        { apply Rmult_le_compat_l; [exact Hh|]. Lra.nra. }
        assert (t * (t * t) <= 12 * h * (t * t)) by Lra.lra. assert (t <= 12 * h) by Lra.nra. Lra.lra.
  Qed.

  Lemma at_zero_small z : In z zs -> dprod ws z <= 3 * B ^ 2 * h.
  Proof.
    intro H. eapply Rle_trans; [apply at_zero, H|]. replace (3 * B ^ 2 * h) with (h * (3 * B ^ 2)) by ring.
    apply Rmult_le_compat_l; [exact Hh|]. eapply Rle_trans; [apply geom_upper; [apply md_pos|lia]|].
    specialize (Hzs z H). fold (md z) in Hzs. pose proof (md_pos z). Lra.nra.
  Qed.
  Lemma zero_near z : In z zs -> exists w, In w ws /\ apart w z <= g.
  Proof.
    intro Hz. destruct (closest z ws) as (w & Hw & M).
    { intro E. pose proof same_length as L. rewrite E in L. cbn in L. lia. }
    exists w. split; [exact Hw|]. rewrite apart_sym. destruct (Rle_dec (apart z w) g) as [L|L]; [exact L|exfalso].
    apply Rnot_le_lt in L. pose proof (at_zero_small z Hz) as X.
    pose proof (dprod_lower ws z g ltac:(Lra.lra)) as Y. specialize (Y ltac:(intros y Hy; specialize (M y Hy); Lra.lra)).
    pose proof h_small as (S1 & S2 & S3). pose proof g_powers as (G1 & G2 & G3 & G4 & G5 & G6).
    rewrite same_length in Y. destruct (List.length zs) as [|[|[|[|n]]]]; [lia| | | |lia]; cbn [pow] in *; Lra.lra.
  Qed.
End Perturb.
