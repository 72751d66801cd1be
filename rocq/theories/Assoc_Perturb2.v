(** Matching the perturbed roots with the zeros. *)
From Coq Require Import Permutation Reals Psatz.
From Verif Require Import PyBase Zeros_Spec Sum_Spec Quad_Spec Moment_Spec Assoc_Spec Modulus Assoc_Perturb.
Open Scope R_scope.

Lemma point_dec (a b : point) : a = b \/ a <> b.
Proof. destruct a as [x y], b as [u v]. destruct (Req_dec x u), (Req_dec y v); subst; [left; reflexivity|right; congruence..]. Qed.

(** The coefficient of x^2 of a cubic. *)
Lemma cubic_sum h a b c p q r :
  Forall2 (fun u v => apart u v <= h) (coefficients_of [a; b; c]) (coefficients_of [p; q; r]) ->
  md (minus_cR (plus_cR (plus_cR a b) c) (plus_cR (plus_cR p q) r)) <= h.
Proof.
  intro H. cbn [coefficients_of map add_coefficients] in H.
  inversion H as [|u1 v1 l1 l1' _ H1 E1 E1']; subst. inversion H1 as [|u2 v2 l2 l2' _ H2 E2 E2']; subst.
  inversion H2 as [|u3 v3 l3 l3' X _ E3 E3']; subst.
  rewrite apart_md in X. rewrite <- md_opp.
  match type of X with md ?u <= _ => match goal with |- md ?v <= _ => replace v with u by cring end end. exact X.
Qed.

Section Perm3.
  Context {A : Type}.
  Implicit Types a b c : A.
  Lemma perm132 a b c : Permutation [a; c; b] [a; b; c].
  Proof. apply perm_skip, perm_swap. Qed.
  Lemma perm213 a b c : Permutation [b; a; c] [a; b; c].
  Proof. apply perm_swap. Qed.
  Lemma perm231 a b c : Permutation [b; c; a] [a; b; c].
  Proof. eapply perm_trans; [apply perm132|apply perm213]. Qed.
  Lemma perm312 a b c : Permutation [c; a; b] [a; b; c].
  Proof. symmetry. apply perm231. Qed.
  Lemma perm321 a b c : Permutation [c; b; a] [a; b; c].
  Proof. eapply perm_trans; [apply perm213|apply perm231]. Qed.
End Perm3.
Ltac perm_tac := first [apply Permutation_refl | apply perm132 | apply perm213 | apply perm231 | apply perm312 | apply perm321].

Ltac unhit H := exfalso; destruct H as [H|[H|[H|H]]]; first [exact H|congruence].
Section Match.
  Variables (B h g : R) (ws zs : list point).
  Hypothesis HB : 1 <= B.
  Hypothesis Hh : 0 <= h.
  Hypothesis Hclose : Forall2 (fun p q => apart p q <= h) (coefficients_of ws) (coefficients_of zs).
  Hypothesis Hzs : forall z, In z zs -> apart z (0, 0) <= B.
  Hypothesis Hg : 0 < g <= 1.
  Hypothesis Hhg : 12 * B ^ 2 * h <= g ^ List.length zs.
  Hypothesis Hlen : (1 <= List.length zs <= 3)%nat.
  Hypothesis Hsep : forall z z', In z zs -> In z' zs -> z <> z' -> 6 * g < apart z z'.

  Lemma near_unique w z z' : In z zs -> In z' zs -> apart w z <= g -> apart w z' <= g -> z = z'.
  Proof.
    intros H H' N N'. destruct (point_dec z z') as [E|E]; [exact E|exfalso].
    specialize (Hsep z z' H H' E). pose proof (apart_tri z w z') as T. rewrite (apart_sym z w) in T. Lra.lra.
  Qed.

  Lemma images : exists zs' : list point, Forall2 (fun w z : point => apart w z <= g) ws zs' /\ (forall z, In z zs' -> In z zs) /\ (forall z, In z zs -> In z zs').
  Proof.
    assert (X : forall l, (forall w, In w l -> In w ws) -> exists zs' : list point, Forall2 (fun w z : point => apart w z <= g) l zs' /\ forall z, In z zs' -> In z zs).
    { induction l as [|w l IH]; intro H; [exists []; split; [constructor|intros z []]|].
      destruct IH as (zs' & I1 & I2); [intros; apply H; right; assumption|].
      destruct (root_near B h ws zs HB Hh Hclose Hzs g Hg Hhg Hlen w (H w (or_introl eq_refl))) as (z & Z1 & Z2).
      exists (z :: zs'). split; [constructor; assumption|]. intros z0 [<-|H0]; auto. }
    destruct (X ws (fun w H => H)) as (zs' & X1 & X2). exists zs'. split; [exact X1|]. split; [exact X2|].
    intros z Hz. destruct (zero_near B h ws zs HB Hh Hclose Hzs g Hg Hhg Hlen z Hz) as (w & Hw & N).
    clear - Hsep X1 X2 Hz Hw N Hg. revert Hw. induction X1 as [|u v l l' H1 H2 IH]; [intros []|].
    intros [<-|Hw].
    - left. apply (near_unique u v z); [apply X2; left; reflexivity|exact Hz|exact H1|exact N].
    - right. apply IH; [intros; apply X2; right; assumption|exact Hw].
  Qed.

  Lemma h_lt_g : h < g.
  Proof.
    destruct (h_small B h zs HB Hh g Hhg) as (A & _). destruct (g_powers g Hg) as (_ & A2 & A3 & _ & A4 & A5).
    destruct (List.length zs) as [|[|[|[|n]]]]; cbn [pow] in A, Hlen; [lia|Lra.lra|Lra.lra|Lra.lra|lia].
  Qed.

  (** Three roots, two different zeros. *)
  Lemma sum_wrong a b x y z u v w : a <> b -> In a zs -> In b zs -> ws = [u; v; w] ->
    apart u x <= g -> apart v y <= g -> apart w z <= g ->
    (exists p q r, zs = [p; q; r] /\
      (minus_cR (plus_cR (plus_cR x y) z) (plus_cR (plus_cR p q) r) = minus_cR a b)) -> False.
  Proof.
    intros N Ha Hb Ew N1 N2 N3 (p & q & r & Ez & E).
    specialize (Hsep a b Ha Hb N). rewrite apart_md in Hsep, N1, N2, N3. rewrite <- E in Hsep.
    pose proof Hclose as C. rewrite Ew, Ez in C. apply cubic_sum in C.
    set (s := plus_cR (plus_cR p q) r) in *.
    replace (minus_cR (plus_cR (plus_cR x y) z) s) with
      (plus_cR (minus_cR (plus_cR (plus_cR u v) w) s) (minus_cR (0, 0) (plus_cR (plus_cR (minus_cR u x) (minus_cR v y)) (minus_cR w z)))) in Hsep by cring.
    pose proof (md_plus (minus_cR (plus_cR (plus_cR u v) w) s) (minus_cR (0, 0) (plus_cR (plus_cR (minus_cR u x) (minus_cR v y)) (minus_cR w z)))) as T1.
    rewrite md_opp in T1. pose proof (md_plus (plus_cR (minus_cR u x) (minus_cR v y)) (minus_cR w z)) as T2.
    pose proof (md_plus (minus_cR u x) (minus_cR v y)) as T3. pose proof h_lt_g. Lra.lra.
  Qed.

  Lemma matching : exists zs' : list point, Permutation zs' zs /\ Forall2 (fun w z : point => apart w z <= g) ws zs'.
  Proof.
    destruct images as (zs' & F & Hin & Hon). exists zs'. split; [|exact F].
    pose proof (F2_len _ _ _ F) as L1. pose proof (same_length h ws zs Hclose) as L2.
    pose proof sum_wrong as SW.
    clear Hzs. destruct zs as [|a [|b [|c [|d zz]]]]; cbn [List.length] in Hlen; [lia| | | |lia].
    - destruct zs' as [|x [|y l]]; [cbn in *; congruence| |cbn in *; congruence].
      destruct (Hin x (or_introl eq_refl)) as [<-|[]]. apply Permutation_refl.
    - destruct zs' as [|x [|y [|z l]]]; [cbn in *; congruence|cbn in *; congruence| |cbn in *; congruence].
      assert (Hx := Hin x (or_introl eq_refl)). assert (Hy := Hin y (or_intror (or_introl eq_refl))).
      assert (Ha := Hon a (or_introl eq_refl)). assert (Hb := Hon b (or_intror (or_introl eq_refl))).
      cbn [In] in Hx, Hy, Ha, Hb.
      destruct Hx as [<-|[<-|[]]], Hy as [<-|[<-|[]]]; try apply Permutation_refl; try apply perm_swap.
      + destruct Hb as [<-|[<-|[]]]; apply Permutation_refl.
      + destruct Ha as [<-|[<-|[]]]; apply Permutation_refl.
    - destruct zs' as [|x [|y [|z [|t l]]]]; [cbn in *; congruence|cbn in *; congruence|cbn in *; congruence| |cbn in *; congruence].
      assert (Hx := Hin x (or_introl eq_refl)). assert (Hy := Hin y (or_intror (or_introl eq_refl))).
      assert (Hz := Hin z (or_intror (or_intror (or_introl eq_refl)))).
      assert (Ha := Hon a (or_introl eq_refl)). assert (Hb := Hon b (or_intror (or_introl eq_refl))).
      assert (Hc := Hon c (or_intror (or_intror (or_introl eq_refl)))).
      inversion F as [|u x0 l1 l1' N1 F1]; subst. inversion F1 as [|v y0 l2 l2' N2 F2]; subst.
      inversion F2 as [|w z0 l3 l3' N3 F3]; subst. inversion F3; subst. clear F F1 F2 F3.
      assert (W : forall p q, p <> q -> In p [a; b; c] -> In q [a; b; c] ->
        minus_cR (plus_cR (plus_cR x y) z) (plus_cR (plus_cR a b) c) = minus_cR p q -> False).
      { intros p q Npq Hp Hq E. apply (SW p q x y z u v w Npq Hp Hq eq_refl N1 N2 N3). exists a, b, c. auto. }
      clear - Hx Hy Hz Ha Hb Hc W.
      assert (P1 : forall p q : point, In p [a; b; c] -> In q [a; b; c] -> p <> q -> 
        minus_cR (plus_cR (plus_cR x y) z) (plus_cR (plus_cR a b) c) <> minus_cR p q) by (intros p q A1 A2 A3 A4; exact (W p q A3 A1 A2 A4)).
      clear W. cbn [In] in Hx, Hy, Hz, Ha, Hb, Hc.
      destruct (point_dec a b) as [Eab|Nab]; [subst b|]; [destruct (point_dec a c) as [Eac|Nac]; [subst c|]|destruct (point_dec a c) as [Eac|Nac]; [subst c|]; [|destruct (point_dec b c) as [Ebc|Nbc]; [subst c|]]].
      + destruct Hx as [<-|[<-|[<-|[]]]], Hy as [<-|[<-|[<-|[]]]], Hz as [<-|[<-|[<-|[]]]]; apply Permutation_refl.
      + (* a a c *) assert (W1 := P1 c a ltac:(cbn; auto) ltac:(cbn; auto) (not_eq_sym Nac)). clear P1.
        destruct Hx as [<-|[<-|[<-|[]]]], Hy as [<-|[<-|[<-|[]]]], Hz as [<-|[<-|[<-|[]]]];
        first [perm_tac | unhit Ha | unhit Hb | unhit Hc | exfalso; clear - W1; apply W1; cring].
      + (* a b a *) assert (W1 := P1 b a ltac:(cbn; auto) ltac:(cbn; auto) (not_eq_sym Nab)). clear P1.
        destruct Hx as [<-|[<-|[<-|[]]]], Hy as [<-|[<-|[<-|[]]]], Hz as [<-|[<-|[<-|[]]]];
        first [perm_tac | unhit Ha | unhit Hb | unhit Hc | exfalso; clear - W1; apply W1; cring].
      + (* a b b *) assert (W1 := P1 a b ltac:(cbn; auto) ltac:(cbn; auto) Nab). clear P1.
        destruct Hx as [<-|[<-|[<-|[]]]], Hy as [<-|[<-|[<-|[]]]], Hz as [<-|[<-|[<-|[]]]];
        first [perm_tac | unhit Ha | unhit Hb | unhit Hc | exfalso; clear - W1; apply W1; cring].
      + clear P1. destruct Hx as [<-|[<-|[<-|[]]]], Hy as [<-|[<-|[<-|[]]]], Hz as [<-|[<-|[<-|[]]]];
        first [perm_tac | unhit Ha | unhit Hb | unhit Hc].
  Qed.
End Match.

Lemma F2_in {A B} (R : A -> B -> Prop) l l' : Forall2 R l l' -> forall b, In b l' -> exists a, In a l /\ R a b.
Proof.
  induction 1 as [|x y l l' H1 H2 IH]; [intros b []|]. intros b [<-|H]; [exists x; split; [left; reflexivity|exact H1]|].
  destruct (IH b H) as (a & A1 & A2). exists a. split; [right; exact A1|exact A2].
Qed.

Theorem perturbed B h rho ws zs : 1 <= B -> 0 <= h -> conditioned B h rho zs -> (1 <= List.length zs <= 3)%nat ->
  Forall2 (fun p q => apart p q <= h) (coefficients_of ws) (coefficients_of zs) ->
  exists zs' : list point, Permutation zs' zs /\ Forall2 (fun w z : point => apart w z <= rho) ws zs'.
Proof.
  intros HB Hh [(z1 & Ez & Hr)|(Hzs & g & Hg & Hhg & Hsep & HR)] Hlen Hclose.
  { exists [z1]. subst zs. split; [apply Permutation_refl|]. pose proof (same_length h ws [z1] Hclose) as L.
    destruct ws as [|w [|? ?]]; [discriminate| |discriminate]. constructor; [|constructor].
    eapply Rle_trans; [|exact Hr]. cbn [coefficients_of map add_coefficients] in Hclose.
    inversion Hclose as [|u1 v1 l1 l1' X _ E1 E1']; subst. rewrite apart_md in X |- *. rewrite <- md_opp.
    match type of X with md ?u <= _ => match goal with |- md ?v <= _ => replace v with u by cring end end. exact X. }
  destruct (matching B h g ws zs HB Hh Hclose Hzs Hg Hhg Hlen Hsep) as (zs' & Hp & F).
  exists zs'. split; [exact Hp|]. destruct HR as [HR|[Hnd HR]].
  { revert F. apply Forall2_impl || (clear - HR; intro F; induction F; constructor; [Lra.lra|assumption]). }
  assert (Hnd' : NoDup zs') by (eapply Permutation_NoDup; [symmetry; exact Hp|exact Hnd]).
  assert (Hin : forall z, In z zs' -> In z zs) by (intros z; apply Permutation_in, Hp).
  assert (Far : forall w z z', In z zs' -> In z' zs' -> z <> z' -> apart w z <= g -> 5 * g <= apart z' w).
  { intros w z z' H H' N A. specialize (Hsep z z' (Hin z H) (Hin z' H') N).
    pose proof (apart_tri z w z') as T. rewrite (apart_sym z w), (apart_sym w z') in T. Lra.lra. }
  assert (Small : forall z, In z zs' -> dprod ws z <= rho * (5 * g) ^ (List.length zs' - 1)).
  { rewrite (Permutation_length Hp). intros z H. eapply Rle_trans; [eapply (at_zero_small B h ws zs); eauto|].
    assert (0 <= B ^ 2 * h) by (apply Rmult_le_pos; [apply pow2_ge_0|exact Hh]). Lra.lra. }
  rewrite (Permutation_length (Permutation_sym Hp)) in Hlen. clear Hp Hnd Hclose Hzs Hsep Hin.
  assert (Hrho : 0 <= rho).
  { assert (0 <= 12 * B ^ 2 * h) by (apply Rmult_le_pos; [pose proof (pow2_ge_0 B); Lra.lra|exact Hh]).
    assert (0 < (5 * g) ^ (List.length zs - 1)) by (apply pow_lt; Lra.lra).
    assert (0 <= rho * (5 * g) ^ (List.length zs - 1)) by Lra.lra. Lra.nra. }
  destruct zs' as [|a [|b [|c [|d l]]]]; cbn [List.length] in Hlen; [lia| | | |lia].
  - inversion F as [|u x0 l1 l1' N1 F1]; subst. inversion F1; subst. constructor; [|constructor].
    specialize (Small a (or_introl eq_refl)). cbn [dprod fold_right List.length Nat.sub pow] in Small. rewrite apart_sym. Lra.lra.
  - inversion F as [|u x0 l1 l1' N1 F1]; subst. inversion F1 as [|v y0 l2 l2' N2 F2]; subst. inversion F2; subst.
    inversion Hnd' as [|? ? Nab _]; subst. cbn [In] in Nab.
    pose proof (Small a (or_introl eq_refl)) as Sa. pose proof (Small b (or_intror (or_introl eq_refl))) as Sb.
    cbn [dprod fold_right List.length Nat.sub pow] in Sa, Sb.
    pose proof (Far u a b ltac:(cbn; auto) ltac:(cbn; auto) ltac:(intros ->; tauto) N1) as F1'.
    pose proof (Far v b a ltac:(cbn; auto) ltac:(cbn; auto) ltac:(intros ->; tauto) N2) as F2'.
    pose proof (apart_pos a u). pose proof (apart_pos b v).
    assert (X : forall t s, 0 <= t -> 5 * g <= s -> t * s <= rho * (5 * g) -> t <= rho).
    { intros t s T1 T2 T3. assert (t * (5 * g) <= t * s) by (apply Rmult_le_compat_l; assumption).
      apply Rmult_le_reg_r with (5 * g); Lra.lra. }
    constructor; [|constructor; [|constructor]]; rewrite apart_sym.
    + apply (X _ (apart a v)); [assumption|assumption|Lra.lra].
    + apply (X _ (apart b u)); [assumption|assumption|Lra.lra].
  - inversion F as [|u x0 l1 l1' N1 F1]; subst. inversion F1 as [|v y0 l2 l2' N2 F2]; subst.
    inversion F2 as [|w z0 l3 l3' N3 F3]; subst. inversion F3; subst.
    inversion Hnd' as [|? ? Na Hn1]; subst. inversion Hn1 as [|? ? Nb _]; subst. cbn [In] in Na, Nb.
    pose proof (Small a (or_introl eq_refl)) as Sa. pose proof (Small b (or_intror (or_introl eq_refl))) as Sb.
    pose proof (Small c (or_intror (or_intror (or_introl eq_refl)))) as Sc.
    cbn [dprod fold_right List.length Nat.sub pow] in Sa, Sb, Sc.
    pose proof (Far u a b ltac:(cbn; auto) ltac:(cbn; auto) ltac:(intros ->; tauto) N1) as E1.
    pose proof (Far u a c ltac:(cbn; auto) ltac:(cbn; auto) ltac:(intros ->; tauto) N1) as E2.
    pose proof (Far v b a ltac:(cbn; auto) ltac:(cbn; auto) ltac:(intros ->; tauto) N2) as E3.
    pose proof (Far v b c ltac:(cbn; auto) ltac:(cbn; auto) ltac:(intros ->; tauto) N2) as E4.
    pose proof (Far w c a ltac:(cbn; auto) ltac:(cbn; auto) ltac:(intros ->; tauto) N3) as E5.
    pose proof (Far w c b ltac:(cbn; auto) ltac:(cbn; auto) ltac:(intros ->; tauto) N3) as E6.
    pose proof (apart_pos a u). pose proof (apart_pos b v). pose proof (apart_pos c w).
    assert (X : forall t s s', 0 <= t -> 5 * g <= s -> 5 * g <= s' -> t * (s * s') <= rho * (5 * g * (5 * g)) -> t <= rho).
    { intros t s s' T1 T2 T2' T3. assert ((5 * g) * (5 * g) <= s * s') by (apply Rmult_le_compat; Lra.lra).
      assert (t * ((5 * g) * (5 * g)) <= t * (s * s')) by (apply Rmult_le_compat_l; assumption).
      assert (0 < (5 * g) * (5 * g)) by Lra.nra. apply Rmult_le_reg_r with (5 * g * (5 * g)); Lra.lra. }
    constructor; [|constructor; [|constructor; [|constructor]]]; rewrite apart_sym.
    + apply (X _ (apart a v) (apart a w)); [assumption|assumption|assumption|Lra.lra].
    + apply (X _ (apart b u) (apart b w)); [assumption|assumption|assumption|Lra.lra].
    + apply (X _ (apart c u) (apart c v)); [assumption|assumption|assumption|Lra.lra].
Qed.
