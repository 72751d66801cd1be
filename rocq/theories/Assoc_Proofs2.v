(** The associated-polynomial step spots the zeros of a cell. *)
From Coq Require Import Permutation Reals Qreals Qminmax.
From Verif Require Import PyBase Rounding_Model Rounding_Proofs Container_Model Container_Spec
  Container_Proofs Finder_Model Finder_Spec Finder_Proofs Poly_Model Refine_Model Refine_Spec
  Refine_Proofs Refine_Proofs2 Zeros_Spec Zeros_Proofs Refine_Proofs3 EndToEnd_Model EndToEnd_Spec
  EndToEnd_Proofs EndToEnd_Proofs2 EndToEnd_Proofs3 Assist_Proofs Assist_Proofs2
  Sum_Spec Quad_Spec Moment_Spec Assoc_Spec Modulus Assoc_Perturb Assoc_Perturb2 Assoc_Coeff Assoc_Proofs.
Open Scope Z_scope.

Lemma moms_within {S} d (E E' : env S) zeros R0 q : e_est E' = e_est E ->
  moments_within d E zeros (e_precision E') R0 -> avoids zeros q -> cell_of (e_precision E') R0 q ->
  (count zeros q <= 3)%nat ->
  forall n k l ms, (1 <= k)%nat -> (k + n = Datatypes.S (count zeros q))%nat -> moms E' q (Z.of_nat k) n l ms ->
  roots_of l = [] /\ exists ms', ms = Ok ms' /\ List.length ms' = n /\
    forall i, (i < n)%nat -> (apart (real_point (nth i ms' c0)) (power_sum zeros (k + i) q) <= d)%R.
Proof.
  intros HE HM HA Hq Hc. induction n as [|n IH]; intros k l ms Hk Hn H.
  - inversion H; subst. split; [reflexivity|]. exists []. split; [reflexivity|]. split; [reflexivity|]. intros i Hi. lia.
  - assert (Step : forall l1 m, est E' (Z.of_nat k) q l1 m -> roots_of l1 = [] /\ exists m', m = Ok m' /\ (apart (real_point m') (power_sum zeros k q) <= d)%R).
    { intros l1 m (s & s' & zs & He & ->). rewrite HE in He.
      destruct (HM q k s Hq Hc ltac:(lia)) as (s1 & zs1 & m1 & He1 & D & HZ). rewrite He in He1. injection He1 as -> -> ->.
      split; [|exists m1; auto]. destruct zs1 as [|c zs1]; [reflexivity|exfalso].
      destruct (HZ c (or_introl eq_refl)) as (Z1 & Z2 & Z3). exact (Z3 (HA _ Z1 Z2)). }
    assert (Ek : (Z.of_nat k + 1)%Z = Z.of_nat (Datatypes.S k)) by lia.
    inversion H as [|? ? ? e He|? ? l1 m l2 ms2 He Hr|? ? l1 m l2 e He Hr]; subst.
    + destruct (Step _ _ He) as (_ & m' & C & _). discriminate.
    + destruct (Step _ _ He) as (R1 & m' & C & D). injection C as <-. rewrite Ek in Hr.
      destruct (IH (Datatypes.S k) _ _ ltac:(lia) ltac:(lia) Hr) as (R2 & ms' & C2 & L & D2). injection C2 as <-.
      rewrite roots_app, R1, R2. split; [reflexivity|]. exists (m :: ms2). split; [reflexivity|].
      split; [cbn; rewrite L; reflexivity|]. intros [|i] Hi; cbn [nth].
      * rewrite Nat.add_0_r. exact D.
      * replace (k + Datatypes.S i)%nat with (Datatypes.S k + i)%nat by lia. apply D2. lia.
    + rewrite Ek in Hr. destruct (IH (Datatypes.S k) _ _ ltac:(lia) ltac:(lia) Hr) as (_ & ms' & C & _). discriminate.
Qed.

Lemma close_trans a b p c1 c2 : close a p c1 -> close b p c2 -> Forall2 (fun u v => apart u v <= b + a)%R c2 c1.
Proof.
  intro H. revert c2. induction H as [|x y p c1 H1 H2 IH]; intros c2 K; inversion K as [|? y' ? c2' K1 K2]; subst; constructor.
  - pose proof (apart_tri y' (real_point x) y) as T. rewrite (apart_sym y' (real_point x)) in T. eapply Rle_trans; [exact T|]. apply Rplus_le_compat; assumption.
  - apply IH, K2.
Qed.
Lemma close_pos a p c : close a p c -> p <> [] -> (0 <= a)%R.
Proof.
  intros H N. destruct H as [|x y p c H _]; [congruence|]. pose proof (apart_pos (real_point x) y). Lra.lra.
Qed.

Lemma apart_near P w z rho : (rho < Q2R (pow10 (- fst P)) / 2 /\ rho < Q2R (pow10 (- snd P)) / 2)%R ->
  (apart (real_point w) z <= rho)%R -> near P w z.
Proof.
  intros [R1 R2] H. pose proof (apart_re (real_point w) z) as A. pose proof (apart_im (real_point w) z) as B.
  cbn [real_point fst snd] in A, B. rewrite Rabs_minus_sym in A, B. split; Lra.lra.
Qed.

Lemma F2_map {A B C} (f : A -> B) (R : B -> C -> Prop) l : forall k, Forall2 R (map f l) k -> Forall2 (fun a c => R (f a) c) l k.
Proof. induction l as [|a l IH]; intros k H; inversion H; subst; constructor; auto. Qed.
Lemma F2_weaken {A B} (R R' : A -> B -> Prop) l k : (forall a b, R a b -> R' a b) -> Forall2 R l k -> Forall2 R' l k.
Proof. intros H F. induction F; constructor; auto. Qed.

(** The solver's roots are matched with the zeros in the cell. *)
Lemma poly_matched {S} B d e rho (E E' : env S) zeros R0 q phi l o :
  e_est E' = e_est E -> e_polyroots E' = e_polyroots E ->
  resolvable B d e rho E zeros (e_precision E') R0 ->
  avoids zeros q -> cell_of (e_precision E') R0 q -> solver_zone PolyV q phi ->
  (Qabs (phi - inject_Z (Z.of_nat (count zeros q))) <= 1 # 5)%Q -> poly_result E' q phi l o ->
  o = Done tt /\ exists ws zs', roots_of l = group_roots (e_precision E') ws /\
    Permutation zs' (filter (zinb q) zeros) /\ Forall2 (near (e_precision E')) ws zs'.
Proof.
  intros HE HE2 [HM [[HB He0] Hrho HS HC]] HA Hq (Z1 & Z2) Hphi (l1 & ms & Hms & HR).
  assert (Hn : (1 <= count zeros q <= 3)%nat).
  { unfold TWO_PI, MAX_PHASE in Z1, Z2. apply Qabs_Qle_condition in Hphi. destruct Hphi as [A1 A2].
    assert (U : (inject_Z (Z.of_nat (count zeros q)) < 4)%Q) by Lqa.lra.
    assert (L : (0 < inject_Z (Z.of_nat (count zeros q)))%Q) by Lqa.lra.
    change 4%Q with (inject_Z 4) in U. change 0%Q with (inject_Z 0) in L. rewrite <- Zlt_Qlt in U, L. lia. }
  assert (Hround : Z.to_nat (round_half_even phi) = count zeros q).
  { rewrite (round_half_even_close (Z.of_nat (count zeros q))); [apply Nat2Z.id|].
    eapply Qle_lt_trans; [exact Hphi|reflexivity]. }
  rewrite Hround in Hms.
  destruct (moms_within d E E' zeros R0 q HE HM HA Hq ltac:(lia) (count zeros q) 1 l1 ms ltac:(lia) ltac:(lia) Hms)
    as (R1 & ms' & -> & Lm & Dm).
  assert (Hd0 : (0 <= d)%R).
  { specialize (Dm 0%nat ltac:(lia)). pose proof (apart_pos (real_point (nth 0 ms' c0)) (power_sum zeros (1 + 0) q)). Lra.lra. }
  assert (B2 : (1 <= B ^ 2)%R) by Lra.nra.
  assert (Hlen : List.length (filter (zinb q) zeros) = count zeros q) by reflexivity.
  set (h := coefficient_error B d (count zeros q)) in *.
  assert (dh : (d <= h)%R).
  { assert (d * 1 <= d * B)%R by (apply Rmult_le_compat_l; assumption). assert (d * 1 <= d * B ^ 2)%R by (apply Rmult_le_compat_l; assumption).
    unfold h. destruct (count zeros q) as [|[|[|k]]]; cbn [coefficient_error]; Lra.lra. }
  assert (Cf : close h (coefficients_cplx ms') (coefficients_of (filter (zinb q) zeros))).
  { apply computed_coefficients; [exact HB|exact Hd0| |exact Hn|exact Lm|].
    - intro H2. destruct (HC q Hq Hn) as [(z & Ez & _)|(Cb & g & Hg & Hhg & _)]; [rewrite Ez in H2; cbn in H2; lia|].
      split; [|intros z Hz; apply Cb, Hz]. fold h in Hhg.
      assert (g ^ List.length (filter (zinb q) zeros) <= 1)%R.
      { rewrite <- (pow1 (List.length (filter (zinb q) zeros))). apply pow_incr. Lra.lra. }
      assert (B ^ 2 * (h + e) >= 1 * (h + e))%R by (apply Rle_ge, Rmult_le_compat_r; Lra.lra). Lra.lra.
    - intros k Hk. change (1 <= k <= count zeros q)%nat in Hk. specialize (Dm (k - 1)%nat ltac:(lia)).
      replace (1 + (k - 1))%nat with k in Dm by lia. exact Dm. }
  destruct (HS q _ Hq Hn Cf) as (ws & Hws & Cw). rewrite HE2, Hws in HR. destruct HR as [-> ->].
  pose proof (close_trans _ _ _ _ _ Cf Cw) as CT. rewrite Rplus_comm in CT.
  destruct (perturbed B (h + e) rho (map real_point ws) (filter (zinb q) zeros) HB) as (zs' & Hp & F);
    [Lra.lra|exact (HC q Hq Hn)|exact Hn|exact CT|].
  split; [reflexivity|]. exists ws, zs'. split; [|split; [exact Hp|]].
  - change (EvPoly q phi :: ?a ++ ?b) with ([EvPoly q phi] ++ a ++ b). rewrite !roots_app, roots_of_map, R1.
    destruct (adv_logs E' (area q)) as (_ & _ & _ & _ & ->). cbn. apply app_nil_r.
  - apply F2_map in F. revert F. apply F2_weaken. intros w z. apply apart_near, Hrho.
Qed.

Lemma sep_two_one P zeros : separated 2 P zeros -> separated 1 P zeros.
Proof.
  intros Hs z1 z2 H1 H2 A B. pose proof (Q2R_pow10_pos (- fst P)). pose proof (Q2R_pow10_pos (- snd P)).
  apply Hs; [exact H1|exact H2| |]; Lra.lra.
Qed.

(** Runs of the algorithm. *)
Lemma poly_both {S} B d e rho (E : env S) zeros depth s x t : (3 / 2 <= t \/ (1 / 2 <= t /\ separated 2 (cx_precision x) zeros))%R ->
  Refine_Spec.proper (rect_of x) -> cx_df x <> None ->
  reliable E zeros (cx_precision x) (rect_of x) ->
  resolvable B d e rho E zeros (cx_precision x) (rect_of x) ->
  run_spots E PolyV t zeros (separated 2 (cx_precision x) zeros) (separated 2 (cx_precision x) zeros) depth s x /\
  forall a b,
  (x2 (rect_of x) - x1 (rect_of x) < inject_Z (2 ^ Z.of_nat a) * pow10 (- fst (cx_precision x)))%Q ->
  (y2 (rect_of x) - y1 (rect_of x) < inject_Z (2 ^ Z.of_nat b) * pow10 (- snd (cx_precision x)))%Q ->
  (a + b < depth)%nat ->
  forall info, ar_end (argument_algorithm E PolyV depth info s x) = None.
Proof.
  intros Ht Hp Hdf HR HS. apply spots_both; [destruct Ht as [H|[H _]]; Lra.lra|apply sep_two_one|exact Hp|exact HR|intros _; exact Hdf|].
  intros q phi l o Hq _ _ HZ Hphi [[C _]|[_ HN]]; [discriminate|].
  destruct (poly_matched B d e rho E (env_for E x) zeros (rect_of x) q phi l o eq_refl eq_refl HS (proj1 (HR q s Hq)) Hq HZ Hphi HN)
    as (Ho & ws & zs' & Hl & Hperm & HF).
  split; [exact Ho|]. rewrite Hl. apply (grouped_gen zeros _ q ws zs' HF Hperm t); [exact (fun x => x)|exact Ht].
Qed.
