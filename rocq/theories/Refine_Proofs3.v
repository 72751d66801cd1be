(** Statements about whole searches ([calcRoots]). *)
From Coq Require Import Reals Qreals.
From Verif Require Import PyBase Rounding_Model Rounding_Proofs Poly_Model Refine_Model Refine_Spec
  Refine_Proofs Refine_Proofs2 Zeros_Spec Zeros_Proofs.
From Coq Require Import Lqa.
Open Scope Z_scope.

Lemma pow2_big n : (Z.of_nat n < 2 ^ Z.of_nat n).
Proof. apply Z.pow_gt_lin_r; lia. Qed.

Lemma halvings_exist (w e : Q) : (0 < e)%Q -> exists a : nat, (w < inject_Z (2 ^ Z.of_nat a) * e)%Q.
Proof.
  intro He. exists (Z.to_nat (Qceiling (w / e))).
  set (c := Qceiling (w / e)).
  assert (Hw : (w <= inject_Z c * e)%Q).
  { setoid_replace w with (w / e * e)%Q by (field; lra).
    apply Qmult_le_compat_r; [apply Qle_ceiling|lra]. }
  apply Qle_lt_trans with (inject_Z c * e)%Q; [exact Hw|].
  apply Qmult_lt_compat_r; [exact He|]. rewrite <- Zlt_Qlt.
  pose proof (pow2_big (Z.to_nat c)). lia.
Qed.

Lemma C20_depth {S} (E : env S) v r s fuel a b s' l o :
  (x2 r - x1 r < inject_Z (2 ^ Z.of_nat a) * pow10 (- fst (e_precision E)))%Q ->
  (y2 r - y1 r < inject_Z (2 ^ Z.of_nat b) * pow10 (- snd (e_precision E)))%Q ->
  calcRoots E v fuel r s = (s', l, o) ->
  ((a + b < fuel)%nat -> o <> OutOfFuel) /\
  (List.length (handled l) <= 2 ^ (a + b))%nat /\
  (List.length (estimated l) < 2 * 2 ^ (a + b))%nat.
Proof.
  intros Ha Hb H. assert (HB : below E r a b) by (split; assumption).
  assert (P : (1 <= 2 ^ (a + b))%nat) by (clear; induction (a + b)%nat; cbn; lia).
  apply calcRoots_runs in H. destruct H as [(e & H & ->)|(m & l1 & l2 & H1 & H2 & ->)].
  - apply est_logs in H. destruct H as (-> & _ & _ & -> & _). cbn [List.length Z.eqb].
    split; [discriminate|lia].
  - split; [intro Hf; eapply runs_terminate; eassumption|].
    destruct (runs_sizes E _ _ _ _ _ _ H2 a b HB) as [S1 S2].
    apply est_logs in H1. destruct H1 as (L1 & _ & _ & L2 & _).
    rewrite handled_app, estimated_app, L1, L2. cbn [Z.eqb app List.length]. lia.
Qed.

Lemma C20_exists (r : rect) (p : Z * Z) :
  exists depth, forall S (E : env S) v s fuel, e_precision E = p -> (depth <= fuel)%nat ->
    snd (calcRoots E v fuel r s) <> OutOfFuel.
Proof.
  destruct (halvings_exist (x2 r - x1 r) _ (pow10_pos (- fst p))) as [a Ha].
  destruct (halvings_exist (y2 r - y1 r) _ (pow10_pos (- snd p))) as [b Hb].
  exists (a + b + 1)%nat. intros S E v s fuel <- Hf.
  destruct (calcRoots E v fuel r s) as [[s' l] o] eqn:H.
  destruct (C20_depth E v r s fuel a b s' l o Ha Hb H) as [K _]. apply K. lia.
Qed.

Lemma C20_fuel {S} (E : env S) v n m r s s' l o : (n <= m)%nat ->
  calcRoots E v n r s = (s', l, o) -> o <> OutOfFuel -> calcRoots E v m r s = (s', l, o).
Proof. intros Hnm H Ho. exact (calcRoots_fuel E v n m r Hnm s s' l o H Ho). Qed.

Lemma C21_lemma {S} (E : env S) v fuel r s s' l : proper r ->
  calcRoots E v fuel r s = (s', l, Done tt) -> tiles r (handled l).
Proof.
  intros Hr H. apply calcRoots_runs in H. destruct H as [(e & H & C)|(m & l1 & l2 & H1 & H2 & ->)];
    [discriminate|].
  apply est_logs in H1. destruct H1 as (L & _). rewrite handled_app, L. cbn [app].
  eapply runs_tiles; [exact H2|reflexivity|exact Hr].
Qed.

(** All events of a search are legitimate. *)
Lemma calcRoots_events {S} (E : env S) v fuel r s s' l o : proper r ->
  calcRoots E v fuel r s = (s', l, o) ->
  (forall ev, In ev l -> exists m, ev = EvMoment 0 r m \/ exists z, ev = EvRoot (z, 0) /\ contour_zero E z) \/
  (exists phi, estimate E l r phi /\ forall ev, In ev l -> event_ok E v r phi l ev).
Proof.
  intros Hr H. apply calcRoots_runs in H. destruct H as [(e & H & ->)|(m & l1 & l2 & H1 & H2 & ->)].
  - left. intros ev Hi. eapply est_in in Hi; [|exact H]. exists (Err e). exact Hi.
  - right. exists (re m). split.
    { exists m. split; [|reflexivity]. apply in_or_app. left. apply est_logs in H1. tauto. }
    intros ev Hi. apply in_app_or in Hi. destruct Hi as [Hi|Hi].
    + eapply est_events_ok; [exact H1|apply sub_rect_refl|exact Hr|exact Hi].
    + eapply event_ok_weaken.
      * eapply runs_events; eassumption.
      * apply sub_rect_refl.
      * apply incl_appr, incl_refl.
      * exists m. split; [|reflexivity]. apply in_or_app. left. apply est_logs in H1. tauto.
Qed.

Lemma round_error k x : round_half_even x = k -> (Qabs (x - inject_Z k) <= 1 # 2)%Q.
Proof.
  intros <-. destruct (round_half_even_nearest x) as [A _]. exact A.
Qed.

Lemma report_facts {S} (E : env S) v r phi l q p z k : estimate E l r phi ->
  event_ok E v r phi l (EvReport q p) -> z = center q -> k = round_half_even p ->
  exists t, estimate E l q t /\ sub_rect q r /\ sub_tolerance (e_precision E) q /\
    z = center q /\ 1 <= k /\ (Qabs (t - inject_Z k) <= 1 # 2)%Q.
Proof.
  intros He (H1 & H2 & H3 & H4 & H5) Hz Hk. exists p. split.
  { destruct H3 as [[-> ->]|H3]; assumption. }
  split; [exact H1|]. split; [exact H5|]. split; [exact Hz|]. split.
  - rewrite Hk. change 1 with (round_half_even TWO_PI). apply round_half_even_mono, H4.
  - apply round_error. congruence.
Qed.

(** Every root of every variant has one of four origins. *)
Lemma origins {S} (E : env S) v fuel r s s' l o z k : proper r ->
  calcRoots E v fuel r s = (s', l, o) -> In (z, k) (roots_of l) ->
  (k = 0 /\ contour_zero E z) \/
  (exists q t, estimate E l q t /\ sub_rect q r /\ sub_tolerance (e_precision E) q /\
    z = center q /\ 1 <= k /\ (Qabs (t - inject_Z k) <= 1 # 2)%Q) \/
  (v = NewtonV /\ exists q t, estimate E l q t /\ sub_rect q r /\
    (4 # 5 < t)%Q /\ (t < 13 # 10)%Q /\ (x2 q - x1 q < 1 # 10)%Q /\ (y2 q - y1 q < 1 # 10)%Q /\
    k = 1 /\
    (e_secant E (x1 q, (1 # 2) * (y1 q + y2 q))%Q (x2 q, (1 # 2) * (y1 q + y2 q))%Q = Ok z \/
     (e_has_df E = true /\
      e_newton E ((x1 q + x2 q) * (1 # 2), (y1 q + y2 q) * (1 # 2))%Q = Ok z))) \/
  (v = PolyV /\ exists q t degree ms rts, estimate E l q t /\ sub_rect q r /\
    (4 # 5 < t)%Q /\ (t < 34 # 10)%Q /\
    1 <= degree <= 3 /\ (Qabs (t - inject_Z degree) <= 1 # 2)%Q /\
    Z.of_nat (List.length ms) = degree /\
    (forall i, (i < List.length ms)%nat -> In (EvMoment (1 + Z.of_nat i) q (Ok (nth i ms c0))) l) /\
    e_polyroots E (coefficients_cplx ms) = Ok rts /\
    In (z, k) (group_roots (e_precision E) rts)).
Proof.
  intros Hr H Hin. apply in_roots_of in Hin.
  destruct (calcRoots_events E v fuel r s s' l o Hr H) as [K|(phi & He & K)].
  - destruct (K _ Hin) as (m & [C|(x & C & Hz)]); [discriminate|]. injection C as -> ->. auto.
  - pose proof (K _ Hin) as Hev. cbn in Hev.
    destruct Hev as [Hev|[(q & p & H1 & H2 & H3)|[(q & p & H1 & H2 & H3)|(q & p & ms & rts & H1 & H2 & H3 & H4 & H5)]]].
    + left; exact Hev.
    + right; left. exists q. eapply report_facts; try eassumption. apply K, H1.
    + right; right; left. pose proof (K _ H1) as Hq. cbn in Hq.
      destruct Hq as (Q1 & Q2 & Q3 & -> & Q5 & Q6). cbn in Q6.
      unfold TWO_PI, FOUR_PI, deltaRe, deltaIm in Q6.
      split; [reflexivity|]. exists q, p. split; [destruct Q3 as [[-> ->]|Q3]; assumption|].
      split; [exact Q1|]. repeat split; try tauto; lra.
    + right; right; right. pose proof (K _ H1) as Hq. cbn in Hq.
      destruct Hq as (Q1 & Q2 & Q3 & -> & Q5 & Q6). cbn in Q6. unfold TWO_PI, MAX_PHASE in Q6.
      split; [reflexivity|]. exists q, p, (round_half_even p), ms, rts.
      split; [destruct Q3 as [[-> ->]|Q3]; assumption|].
      split; [exact Q1|]. split; [lra|]. split; [lra|]. split; [|].
      { split.
        - change 1 with (round_half_even (8 # 10)). apply round_half_even_mono. lra.
        - change 3 with (round_half_even (34 # 10)). apply round_half_even_mono. lra. }
      split; [apply round_error; reflexivity|]. auto.
Qed.

Lemma C22_lemma {S} (E : env S) fuel r s s' l o z k : proper r ->
  calcRoots E Simple fuel r s = (s', l, o) -> In (z, k) (roots_of l) ->
  (k = 0 /\ contour_zero E z) \/
  (exists q t, estimate E l q t /\ sub_rect q r /\ sub_tolerance (e_precision E) q /\
    z = center q /\ 1 <= k /\ (Qabs (t - inject_Z k) <= 1 # 2)%Q).
Proof.
  intros Hr H Hin. destruct (origins E Simple fuel r s s' l o z k Hr H Hin) as [K|[K|[[C _]|[C _]]]];
    try discriminate; auto.
Qed.

Lemma C25_lemma {S} (E : env S) fuel r s s' l o z k : proper r ->
  calcRoots E NewtonV fuel r s = (s', l, o) -> In (z, k) (roots_of l) ->
  (k = 0 /\ contour_zero E z) \/
  (exists q t, estimate E l q t /\ sub_rect q r /\ sub_tolerance (e_precision E) q /\
    z = center q /\ 1 <= k /\ (Qabs (t - inject_Z k) <= 1 # 2)%Q) \/
  (exists q t, estimate E l q t /\ sub_rect q r /\
    (4 # 5 < t)%Q /\ (t < 13 # 10)%Q /\ (x2 q - x1 q < 1 # 10)%Q /\ (y2 q - y1 q < 1 # 10)%Q /\
    k = 1 /\
    (e_secant E (x1 q, (1 # 2) * (y1 q + y2 q))%Q (x2 q, (1 # 2) * (y1 q + y2 q))%Q = Ok z \/
     (e_has_df E = true /\
      e_newton E ((x1 q + x2 q) * (1 # 2), (y1 q + y2 q) * (1 # 2))%Q = Ok z))).
Proof.
  intros Hr H Hin. destruct (origins E NewtonV fuel r s s' l o z k Hr H Hin) as [K|[K|[[_ K]|[C _]]]];
    try discriminate; auto.
Qed.

Lemma C26_lemma {S} (E : env S) fuel r s s' l o z k : proper r ->
  calcRoots E PolyV fuel r s = (s', l, o) -> In (z, k) (roots_of l) ->
  (k = 0 /\ contour_zero E z) \/
  (exists q t, estimate E l q t /\ sub_rect q r /\ sub_tolerance (e_precision E) q /\
    z = center q /\ 1 <= k /\ (Qabs (t - inject_Z k) <= 1 # 2)%Q) \/
  (exists q t degree ms rts, estimate E l q t /\ sub_rect q r /\
    (4 # 5 < t)%Q /\ (t < 34 # 10)%Q /\
    1 <= degree <= 3 /\ (Qabs (t - inject_Z degree) <= 1 # 2)%Q /\
    Z.of_nat (List.length ms) = degree /\
    (forall i, (i < List.length ms)%nat -> In (EvMoment (1 + Z.of_nat i) q (Ok (nth i ms c0))) l) /\
    e_polyroots E (coefficients_cplx ms) = Ok rts /\
    In (z, k) (group_roots (e_precision E) rts)).
Proof.
  intros Hr H Hin. destruct (origins E PolyV fuel r s s' l o z k Hr H Hin) as [K|[K|[[C _]|[_ K]]]];
    try discriminate; auto.
Qed.

(** ** C23 *)
Lemma C23_lemma {S} (E : env S) zeros fuel r s s' l o : proper r ->
  calcRoots E Simple fuel r s = (s', l, o) -> o <> OutOfFuel -> good_run zeros l ->
  o = Done tt /\
  located l = map (fun q => (center q, Z.of_nat (count zeros q))) (reported l) /\
  (forall q, In q (reported l) ->
     sub_rect q r /\ sub_tolerance (e_precision E) q /\ (1 <= count zeros q)%nat) /\
  ForallOrdPairs interiors_disjoint (reported l) /\
  (forall z, In z zeros -> zin r z ->
     exists c k, In (c, k) (located l) /\ near (e_precision E) c z) /\
  (forall c k, In (c, k) (located l) ->
     exists z, In z zeros /\ zin r z /\ near (e_precision E) c z) /\
  fold_right Z.add 0 (map snd (located l)) = Z.of_nat (count zeros r).
Proof.
  intros Hr H Ho Hg. pose proof H as Hcopy.
  apply calcRoots_runs in H. destruct H as [(e & H & ->)|(m & l1 & l2 & H1 & H2 & ->)].
  { destruct (good_est E zeros _ _ _ H Hg) as (_ & m' & C & _). discriminate. }
  pose proof (good_app zeros _ _ Hg) as [G1 G2].
  destruct (good_est E zeros _ _ _ H1 G1) as (_ & m' & [= <-] & GA).
  destruct (runs_correct E zeros _ _ _ _ _ H2 Hr GA G2 Ho) as (-> & L & Q & Z & O).
  rewrite located_app, (est_located E _ _ _ _ H1). cbn [app].
  rewrite reported_app. pose proof (est_logs E _ _ _ _ H1) as (Lh & R & _). rewrite R. cbn [app].
  split; [reflexivity|]. split; [exact L|].
  split. { intros q Hq. destruct (Q q Hq) as (A1 & A2 & A3 & A4). auto. }
  split.
  { destruct (C21_lemma E Simple fuel r s s' _ Hr Hcopy) as (_ & _ & D & _).
    rewrite handled_app, Lh in D. cbn [app] in D. clear -D.
    assert (I : forall l, ForallOrdPairs interiors_disjoint (handled l) ->
       ForallOrdPairs interiors_disjoint (reported l)).
    { assert (J : forall l q, In q (reported l) -> In q (handled l)).
      { intros l q. unfold reported, handled. rewrite !in_flat_map. intros (ev & Hev & Hq).
        exists ev. split; [exact Hev|]. destruct ev; cbn in *; tauto. }
      intro l. induction l as [|ev l IH]; [intros _; constructor|].
      intro D'. change (ev :: l) with ([ev] ++ l) in *. rewrite handled_app in D'. rewrite reported_app.
      destruct ev; cbn [handled reported flat_map app] in *; try (apply IH; exact D'); inversion D'; subst; auto.
      constructor; [|auto]. rewrite Forall_forall in *. intros q Hq. auto. }
    apply I, D. }
  split.
  { intros z Hz Hin. destruct (Z z Hz Hin) as (q & Hq & Hqz).
    exists (center q), (Z.of_nat (count zeros q)). split.
    - rewrite L. apply in_map_iff. exists q. auto.
    - destruct (Q q Hq) as (A1 & A2 & A3 & A4). apply near_center; assumption. }
  split.
  { intros c k Hck. rewrite L in Hck. apply in_map_iff in Hck. destruct Hck as (q & [= <- <-] & Hq).
    destruct (Q q Hq) as (A1 & A2 & A3 & A4). destruct (count_pos zeros q A4) as (z & Hz & Hqz).
    exists z. split; [exact Hz|]. split; [|apply near_center; assumption].
    clear -A1 Hqz. unfold sub_rect in A1. destruct A1 as (A1 & B1 & C1 & D1).
    apply Qle_Rle in A1, B1, C1, D1. unfold zin in *. Lra.lra. }
  rewrite L, map_map. cbn [snd]. rewrite <- O. unfold orders_sum. clear.
  induction (reported l2) as [|q ls IH]; [reflexivity|]. cbn [map fold_right]. rewrite IH. lia.
Qed.

Lemma good_if_close t n : (Qabs (t - inject_Z (Z.of_nat n)) <= 1 # 5)%Q -> good_estimate t n.
Proof.
  intro H. apply Qabs_Qle_condition in H. split.
  - intros ->. change (inject_Z (Z.of_nat 0)) with 0%Q in H. lra.
  - intro Hn. assert (Hq : (1 <= inject_Z (Z.of_nat n))%Q).
    { change 1%Q with (inject_Z 1). rewrite <- Zle_Qle. lia. }
    split; [lra|]. apply Qabs_Qlt_condition. lra.
Qed.

(** Well separated zeros: orders are multiplicities. *)
Lemma count_one_cluster zeros q z :
  (forall z1 z2, In z1 zeros -> In z2 zeros -> zin q z1 -> zin q z2 -> z1 = z2) ->
  In z zeros -> zin q z ->
  forall dec : (forall a b : point, {a = b} + {a <> b}),
  count zeros q = count_occ dec zeros z.
Proof.
  intros Hs Hz Hq dec. unfold count.
  assert (G : forall l, (forall y, In y l -> In y zeros) ->
     List.length (filter (zinb q) l) = count_occ dec l z).
  { induction l as [|y l IH]; intro Hl; [reflexivity|]. cbn.
    destruct (dec y z) as [->|N].
    - assert (T : zinb q z = true) by (apply zinb_true; exact Hq). rewrite T. cbn. f_equal.
      apply IH. intros y' Hy'; apply Hl; right; exact Hy'.
    - assert (T : zinb q y = false).
      { apply zinb_false. intro C. apply N. apply Hs; auto. apply Hl. left; reflexivity. }
      rewrite T. apply IH. intros y' Hy'; apply Hl; right; exact Hy'. }
  apply G. auto.
Qed.

Lemma C23_separated {S} (E : env S) zeros fuel r s s' l o : proper r ->
  calcRoots E Simple fuel r s = (s', l, o) -> o <> OutOfFuel -> good_run zeros l ->
  (forall z1 z2, In z1 zeros -> In z2 zeros ->
     (Rabs (fst z1 - fst z2) < Q2R (pow10 (- fst (e_precision E))))%R ->
     (Rabs (snd z1 - snd z2) < Q2R (pow10 (- snd (e_precision E))))%R -> z1 = z2) ->
  forall c k, In (c, k) (located l) ->
    exists z, In z zeros /\ zin r z /\ near (e_precision E) c z /\
      forall dec : (forall a b : point, {a = b} + {a <> b}), k = Z.of_nat (count_occ dec zeros z).
Proof.
  intros Hr H Ho Hg Hsep c k Hck.
  destruct (C23_lemma E zeros fuel r s s' l o Hr H Ho Hg) as (_ & L & Q & _).
  rewrite L in Hck. apply in_map_iff in Hck. destruct Hck as (q & [= <- <-] & Hq).
  destruct (Q q Hq) as (A1 & A3 & A4). destruct (count_pos zeros q A4) as (z & Hz & Hqz).
  exists z. split; [exact Hz|]. split.
  { clear -A1 Hqz. unfold sub_rect in A1. destruct A1 as (A1 & B1 & C1 & D1).
    apply Qle_Rle in A1, B1, C1, D1. unfold zin in *. Lra.lra. }
  assert (Hp : proper q).
  { destruct (calcRoots_events E Simple fuel r s s' l o Hr H) as [K|(phi & He & K)].
    - exfalso. unfold reported in Hq. apply in_flat_map in Hq. destruct Hq as (ev & Hev & Hq).
      destruct (K _ Hev) as (m & [->|(x & -> & _)]); destruct Hq.
    - unfold reported in Hq. apply in_flat_map in Hq. destruct Hq as (ev & Hev & Hq).
      destruct ev as [? |?|? ? ?|? ?|q' p'|? ?|? ?]; cbn in Hq; try tauto. destruct Hq as [<-|[]].
      pose proof (K _ Hev) as K'. cbn in K'. tauto. }
  split; [apply near_center; assumption|].
  intro dec. f_equal. apply count_one_cluster; [|exact Hz|exact Hqz].
  intros z1 z2 H1 H2 [P1 P2] [P3 P4]. apply Hsep; [exact H1|exact H2| |];
    destruct A3 as [S1 S2]; apply Qlt_Rlt in S1, S2; rewrite Q2R_minus in S1, S2;
    apply Rabs_def1; Lra.lra.
Qed.

(** ** C24 *)
Lemma halves_area {S} (E : env S) r A B : splits E r A B -> (area A == area r / 2)%Q.
Proof.
  intros [_ [(_ & -> & _)|(_ & -> & _)]]; unfold area, deltaRe, deltaIm; cbn [x1 x2 y1 y2]; field.
Qed.

Lemma C24_first_decision {S} (E : env S) v n r s s1 zs m :
  proper r -> (v = PolyV -> e_has_df E = true) ->
  e_est E 0 r (if e_dirty E s then e_reset E s else s) = (s1, zs, Ok m) ->
  let '(_, l, o) := calcRoots E v (Datatypes.S n) r s in
  ((re m < 4 # 5)%Q -> o = Done tt /\ handled l = [r] /\ located l = []) /\
  ((4 # 5 <= re m)%Q -> sub_tolerance (e_precision E) r ->
     o = Done tt /\ exists k, located l = [(center r, k)] /\ 1 <= k /\
       (Qabs (re m - inject_Z k) <= 1 # 2)%Q) /\
  ((4 # 5 <= re m)%Q -> ~ sub_tolerance (e_precision E) r -> v = Simple ->
     exists q t, In (EvMoment 0 q t) l /\ sub_rect q r /\ (area q == area r / 2)%Q).
Proof.
  intros Hr Hdf He. destruct (calcRoots E v (Datatypes.S n) r s) as [[s' l] o] eqn:H.
  unfold calcRoots in H. unfold mbind, calcMoment in H. rewrite He in H.
  destruct (decideRefinement E v (Datatypes.S n) r (re m) s1) as [[s2 l2] o2] eqn:H2.
  injection H as <- <- <-. pose proof (decide_runs E v _ _ _ _ _ _ _ H2) as R.
  set (l1 := map _ zs ++ _).
  assert (H1 : est E 0 r l1 (Ok m)) by (exists (if e_dirty E s then e_reset E s else s), s1, zs; auto).
  rewrite handled_app, located_app, (est_located E _ _ _ _ H1).
  pose proof (est_logs E _ _ _ _ H1) as (-> & _ & _ & _ & _ & _). cbn [app].
  assert (DA : forall a, located (adv E a) = [])
    by (intro a; unfold adv; destruct (e_progress E); reflexivity).
  assert (SP : forall A B l0 m0 l3, splits E r A B -> est E 0 A l0 m0 -> l2 = l0 ++ l3 ->
     exists q t, In (EvMoment 0 q t) (l1 ++ l2) /\ sub_rect q r /\ (area q == area r / 2)%Q).
  { intros A B l0 m0 l3 HS H0 ->. exists A, m0. apply est_logs in H0.
    destruct (splits_geometry E _ _ _ HS Hr) as (_ & _ & SA & _).
    split; [rewrite !in_app_iff; tauto|]. split; [exact SA|]. eapply halves_area, HS. }
  inversion R as [| n' r' p' Hv Hd|n' r' p' Hd Hp|n' r' p' Hd Hp Hs|n' r' p' l' o' Hv Hs Hz HN
      |n' r' p' l' o' Hv Hd Hs Hz HP|n' r' p' A B l' e Hd Hp Hz HAB K1
      |n' r' p' A B l' m' l2' o' Hd Hp Hz HAB K1 K2 Ho
      |n' r' p' A B l' m' l2' l3 e Hd Hp Hz HAB K1 K2 K3
      |n' r' p' A B l' m' l2' l3 m2 l4 o' Hd Hp Hz HAB K1 K2 K3 K4]; subst.
  - exfalso. rewrite Hdf in Hd by reflexivity. discriminate.
  - pose proof (DA (area r)) as D3. destruct (adv_logs E (area r)) as (D4 & _).
    unfold TWO_PI in Hp. split; [|split; intros; exfalso; lra]. intros _.
    change (EvDiscard r (re m) :: ?l) with ([EvDiscard r (re m)] ++ l).
    rewrite handled_app, located_app, D3, D4. auto.
  - unfold TWO_PI in Hp. split; [intro; exfalso; lra|].
    change (EvReport r (re m) :: ?x :: ?l) with ([EvReport r (re m); x] ++ l).
    rewrite located_app. rewrite DA.
    split; [|intros _ C; contradiction]. intros _ _. split; [reflexivity|].
    assert (H1k : 1 <= round_half_even (re m)).
    { change 1 with (round_half_even TWO_PI). apply round_half_even_mono. exact Hp. }
    exists (round_half_even (re m)). cbn [located filter roots_of flat_map snd app].
    destruct (Z.eqb_spec (round_half_even (re m)) 0); [lia|]. cbn [negb app].
    split; [reflexivity|]. split; [exact H1k|]. apply round_error. reflexivity.
  - destruct Hz as (Hz & _). unfold TWO_PI in Hz. split; [intro; exfalso; lra|].
    split; [intros _ C; contradiction|discriminate].
  - destruct Hz as (Hz & _). unfold TWO_PI in Hz. split; [intro; exfalso; lra|].
    split; [intros _ C; contradiction|discriminate].
  - unfold TWO_PI in Hp. split; [intro; exfalso; lra|]. pose proof HAB as [C _].
    split; [intros _ C'; contradiction|]. intros _ _ _. eapply SP; try eassumption.
    symmetry; apply app_nil_r.
  - unfold TWO_PI in Hp. split; [intro; exfalso; lra|]. pose proof HAB as [C _].
    split; [intros _ C'; contradiction|]. intros _ _ _. eapply SP; try eassumption. reflexivity.
  - unfold TWO_PI in Hp. split; [intro; exfalso; lra|]. pose proof HAB as [C _].
    split; [intros _ C'; contradiction|]. intros _ _ _. eapply SP; [exact HAB|exact K1|reflexivity].
  - unfold TWO_PI in Hp. split; [intro; exfalso; lra|]. pose proof HAB as [C _].
    split; [intros _ C'; contradiction|]. intros _ _ _. eapply SP; [exact HAB|exact K1|reflexivity].
Qed.

(** ** C25: failing and converging solvers *)
Lemma caught e : if catches_RuntimeError e then is_RuntimeError e else ~ is_RuntimeError e.
Proof. unfold is_RuntimeError. destruct e; cbn; try tauto; intuition discriminate. Qed.

Lemma C25_silent {S} (E : env S) n r s s1 zs m x0 :
  e_est E 0 r (if e_dirty E s then e_reset E s else s) = (s1, zs, Ok m) ->
  ~ sub_tolerance (e_precision E) r ->
  (x2 r - x1 r < 1 # 10)%Q -> (y2 r - y1 r < 1 # 10)%Q -> (4 # 5 < re m)%Q -> (re m < 13 # 10)%Q ->
  e_secant E (x1 r, (1 # 2) * (y1 r + y2 r))%Q (x2 r, (1 # 2) * (y1 r + y2 r))%Q = Err x0 ->
  let '(_, l, o) := calcRoots E NewtonV (Datatypes.S n) r s in
  (is_RuntimeError x0 -> o = Done tt) /\ (~ is_RuntimeError x0 -> o = Raised x0) /\ located l = [].
Proof.
  intros He Hs Hx Hy H4 H13 Hsec.
  destruct (calcRoots E NewtonV (Datatypes.S n) r s) as [[s' l] o] eqn:H.
  unfold calcRoots in H. unfold mbind, calcMoment in H. rewrite He in H.
  destruct (decideRefinement E NewtonV (Datatypes.S n) r (re m) s1) as [[s2 l2] o2] eqn:H2.
  injection H as <- <- <-. pose proof (decide_runs E NewtonV _ _ _ _ _ _ _ H2) as R.
  set (l1 := map _ zs ++ _).
  assert (H1 : est E 0 r l1 (Ok m)) by (exists (if e_dirty E s then e_reset E s else s), s1, zs; auto).
  rewrite located_app, (est_located E _ _ _ _ H1). cbn [app].
  assert (Zn : solver_zone NewtonV r (re m)).
  { cbn. unfold TWO_PI, FOUR_PI, deltaRe, deltaIm. lra. }
  inversion R as [| n' r' p' Hv Hd|n' r' p' Hd Hp|n' r' p' Hd Hp Hs'|n' r' p' l' o' Hv Hs' Hz HN
      |n' r' p' l' o' Hv Hd Hs' Hz HP|n' r' p' A B l' e Hd Hp Hz HAB K1
      |n' r' p' A B l' m' l2' o' Hd Hp Hz HAB K1 K2 Ho
      |n' r' p' A B l' m' l2' l3 e Hd Hp Hz HAB K1 K2 K3
      |n' r' p' A B l' m' l2' l3 m2 l4 o' Hd Hp Hz HAB K1 K2 K3 K4]; subst;
    try contradiction; try discriminate.
  - unfold TWO_PI in Hp. exfalso; lra.
  - destruct HN as (rs & x & -> & -> & K). cbv zeta in K. rewrite Hsec in K. destruct K as [-> ->].
    pose proof (caught x0) as C. split; [|split].
    + intro I. destruct (catches_RuntimeError x0); [reflexivity|contradiction].
    + intro I. destruct (catches_RuntimeError x0); [contradiction|reflexivity].
    + cbn [map app]. unfold adv. destruct (e_progress E); reflexivity.
Qed.

Lemma runs_goes_on {S} (E : env S) n r phi l o : runs E NewtonV n r phi l o ->
  (forall a b e, e_secant E a b = Err e -> is_RuntimeError e) ->
  (forall a e, e_newton E a = Err e -> is_RuntimeError e) ->
  (forall q e, ~ In (EvMoment 0 q (Err e)) l) -> o <> OutOfFuel -> o = Done tt.
Proof.
  intros H H1s H1n. remember NewtonV as v eqn:Ev. revert Ev.
  induction H as [r phi|n r phi Hv Hdf|n r phi Hdf Hp|n r phi Hdf Hp Hs|n r phi l o Hv Hs Hz HN
    |n r phi l o Hv Hdf Hs Hz HP|n r phi A B l e Hdf Hp Hz HAB H1
    |n r phi A B l1 m l2 o Hdf Hp Hz HAB H1 H2 IH2 Ho
    |n r phi A B l1 m l2 l3 e Hdf Hp Hz HAB H1 H2 IH2 H3
    |n r phi A B l1 m l2 l3 m2 l4 o Hdf Hp Hz HAB H1 H2 IH2 H3 H4 IH4];
    intros Ev Hok Hf; try congruence.
  - destruct HN as (rs & x & -> & -> & K). cbv zeta in K.
    destruct (e_secant E _ _) as [z|e] eqn:Hsec.
    + destruct (e_has_df E); [destruct (e_newton E _) as [w|e] eqn:Hn|]; destruct K as [_ ->]; auto.
      apply H1n in Hn. pose proof (caught e). destruct (catches_RuntimeError e); [reflexivity|contradiction].
    + destruct K as [_ ->]. apply H1s in Hsec. pose proof (caught e). destruct (catches_RuntimeError e); [reflexivity|contradiction].
  - exfalso. apply (Hok A e). apply est_logs in H1. tauto.
  - exfalso. apply Ho. apply IH2; auto. intros q e Hi. apply (Hok q e), in_or_app; auto.
  - exfalso. apply (Hok B e). apply est_logs in H3. rewrite !in_app_iff. tauto.
  - apply IH4; auto. intros q e Hi. apply (Hok q e). rewrite !in_app_iff; tauto.
Qed.

Lemma C25_goes_on {S} (E : env S) fuel r s s' l o :
  calcRoots E NewtonV fuel r s = (s', l, o) -> o <> OutOfFuel ->
  (forall a b e, e_secant E a b = Err e -> is_RuntimeError e) ->
  (forall a e, e_newton E a = Err e -> is_RuntimeError e) ->
  (forall q e, ~ In (EvMoment 0 q (Err e)) l) -> o = Done tt.
Proof.
  intros H Ho Hs Hn Hok. apply calcRoots_runs in H.
  destruct H as [(e & H & ->)|(m & l1 & l2 & H1 & H2 & ->)].
  - exfalso. apply (Hok r e). apply est_logs in H. tauto.
  - eapply runs_goes_on; try eassumption. intros q e Hi. apply (Hok q e), in_or_app; auto.
Qed.

Lemma runs_report_root {S} (E : env S) v n r phi l o q p : runs E v n r phi l o ->
  In (EvReport q p) l -> In (EvRoot (center q, round_half_even p)) l.
Proof.
  induction 1 as [r phi|n r phi Hv Hdf|n r phi Hdf Hp|n r phi Hdf Hp Hs|n r phi l o Hv Hs Hz HN
        |n r phi l o Hv Hdf Hs Hz HP|n r phi A B l e Hdf Hp Hz HAB H1
        |n r phi A B l1 m l2 o Hdf Hp Hz HAB H1 H2 IH2 Ho
        |n r phi A B l1 m l2 l3 e Hdf Hp Hz HAB H1 H2 IH2 H3
        |n r phi A B l1 m l2 l3 m2 l4 o Hdf Hp Hz HAB H1 H2 IH2 H3 H4 IH4]; intro Hq.
      * destruct Hq.
      * destruct Hq.
      * destruct Hq as [C|Hq]; [discriminate|]. apply in_adv in Hq. destruct Hq; discriminate.
      * destruct Hq as [C|[C|Hq]]; [|discriminate|apply in_adv in Hq; destruct Hq; discriminate].
        injection C as -> ->. right; left; reflexivity.
      * destruct HN as (rs & x & -> & _). destruct Hq as [C|Hq]; [discriminate|].
        apply in_app_or in Hq. destruct Hq as [Hq|Hq].
        -- apply in_map_iff in Hq. destruct Hq as (y & C & _); discriminate.
        -- apply in_adv in Hq. destruct Hq; discriminate.
      * exfalso. destruct HP as (l1 & ms & HM & K).
        assert (N : ~ In (EvReport q p) l1).
        { intro Hi. eapply moms_in in Hi; [|exact HM]. destruct Hi as [(j & mm & _ & C)|(x & C & _)]; discriminate. }
        destruct ms as [ms|e]; [destruct (e_polyroots E _)|]; destruct K as [K1 K2]; subst; auto.
        apply in_app_or in Hq. destruct Hq as [Hi|[Hi|Hi]]; [auto|discriminate|].
        apply in_app_or in Hi. destruct Hi as [Hi|Hi].
        -- apply in_map_iff in Hi. destruct Hi as (x & C & _); discriminate.
        -- apply in_adv in Hi. destruct Hi as [_ C]; discriminate.
      * exfalso. eapply est_in in Hq; [|exact H1]. destruct Hq as [C|(x & C & _)]; discriminate.
      * apply in_app_or in Hq. destruct Hq as [Hq|Hq]; [|apply in_or_app; auto].
        exfalso. eapply est_in in Hq; [|exact H1]. destruct Hq as [C|(x & C & _)]; discriminate.
      * apply in_app_or in Hq. destruct Hq as [Hq|Hq].
        { exfalso. eapply est_in in Hq; [|exact H1]. destruct Hq as [C|(x & C & _)]; discriminate. }
        apply in_app_or in Hq. destruct Hq as [Hq|Hq]; [rewrite !in_app_iff; auto|].
        exfalso. eapply est_in in Hq; [|exact H3]. destruct Hq as [C|(x & C & _)]; discriminate.
      * apply in_app_or in Hq. destruct Hq as [Hq|Hq].
        { exfalso. eapply est_in in Hq; [|exact H1]. destruct Hq as [C|(x & C & _)]; discriminate. }
        apply in_app_or in Hq. destruct Hq as [Hq|Hq]; [rewrite !in_app_iff; auto|].
        apply in_app_or in Hq. destruct Hq as [Hq|Hq]; [|rewrite !in_app_iff; auto].
        exfalso. eapply est_in in Hq; [|exact H3]. destruct Hq as [C|(x & C & _)]; discriminate.
Qed.

Lemma runs_newton_root {S} (E : env S) v n r phi l o q p w : runs E v n r phi l o ->
  In (EvNewton q p) l ->
  e_secant E (x1 q, (1 # 2) * (y1 q + y2 q))%Q (x2 q, (1 # 2) * (y1 q + y2 q))%Q = Ok w ->
  In (EvRoot (w, 1)) l.
Proof.
  induction 1 as [r phi|n r phi Hv Hdf|n r phi Hdf Hp|n r phi Hdf Hp Hs|n r phi l o Hv Hs Hz HN
      |n r phi l o Hv Hdf Hs Hz HP|n r phi A B l e Hdf Hp Hz HAB H1
      |n r phi A B l1 m l2 o Hdf Hp Hz HAB H1 H2 IH2 Ho
      |n r phi A B l1 m l2 l3 e Hdf Hp Hz HAB H1 H2 IH2 H3
      |n r phi A B l1 m l2 l3 m2 l4 o Hdf Hp Hz HAB H1 H2 IH2 H3 H4 IH4]; intros Hq Hw.
    + destruct Hq.
    + destruct Hq.
    + destruct Hq as [C|Hq]; [discriminate|]. apply in_adv in Hq. destruct Hq; discriminate.
    + destruct Hq as [C|[C|Hq]]; [discriminate|discriminate|apply in_adv in Hq; destruct Hq; discriminate].
    + destruct HN as (rs & x & -> & _ & K). destruct Hq as [C|Hq].
      * injection C as -> ->. cbv zeta in K. rewrite Hw in K. right. apply in_or_app. left.
        destruct (e_has_df E); [destruct (e_newton E _)|]; destruct K as [-> _]; left; reflexivity.
      * apply in_app_or in Hq. destruct Hq as [Hq|Hq].
        -- apply in_map_iff in Hq. destruct Hq as (y & C & _); discriminate.
        -- apply in_adv in Hq. destruct Hq; discriminate.
    + exfalso. destruct HP as (l1 & ms & HM & K).
      assert (N : ~ In (EvNewton q p) l1).
      { intro Hi. eapply moms_in in Hi; [|exact HM]. destruct Hi as [(j & mm & _ & C)|(x & C & _)]; discriminate. }
      destruct ms as [ms|e]; [destruct (e_polyroots E _)|]; destruct K as [K1 K2]; subst; auto.
      apply in_app_or in Hq. destruct Hq as [Hi|[Hi|Hi]]; [auto|discriminate|].
      apply in_app_or in Hi. destruct Hi as [Hi|Hi].
      * apply in_map_iff in Hi. destruct Hi as (x & C & _); discriminate.
      * apply in_adv in Hi. destruct Hi as [_ C]; discriminate.
    + exfalso. eapply est_in in Hq; [|exact H1]. destruct Hq as [C|(x & C & _)]; discriminate.
    + apply in_app_or in Hq. destruct Hq as [Hq|Hq]; [|apply in_or_app; auto].
      exfalso. eapply est_in in Hq; [|exact H1]. destruct Hq as [C|(x & C & _)]; discriminate.
    + apply in_app_or in Hq. destruct Hq as [Hq|Hq].
      { exfalso. eapply est_in in Hq; [|exact H1]. destruct Hq as [C|(x & C & _)]; discriminate. }
      apply in_app_or in Hq. destruct Hq as [Hq|Hq]; [rewrite !in_app_iff; auto|].
      exfalso. eapply est_in in Hq; [|exact H3]. destruct Hq as [C|(x & C & _)]; discriminate.
    + apply in_app_or in Hq. destruct Hq as [Hq|Hq].
      { exfalso. eapply est_in in Hq; [|exact H1]. destruct Hq as [C|(x & C & _)]; discriminate. }
      apply in_app_or in Hq. destruct Hq as [Hq|Hq]; [rewrite !in_app_iff; auto|].
      apply in_app_or in Hq. destruct Hq as [Hq|Hq]; [|rewrite !in_app_iff; auto].
      exfalso. eapply est_in in Hq; [|exact H3]. destruct Hq as [C|(x & C & _)]; discriminate.
Qed.

Lemma C25_complete {S} (E : env S) zeros fuel r s s' l : proper r ->
  calcRoots E NewtonV fuel r s = (s', l, Done tt) -> good_run zeros l ->
  (forall q z, (x2 q - x1 q < 1 # 10)%Q -> (y2 q - y1 q < 1 # 10)%Q ->
     count zeros q = 1%nat -> In z zeros -> zin q z ->
     exists w, e_secant E (x1 q, (1 # 2) * (y1 q + y2 q))%Q (x2 q, (1 # 2) * (y1 q + y2 q))%Q = Ok w /\
       near (e_precision E) w z) ->
  forall z, In z zeros -> zin r z -> exists c k, In (c, k) (located l) /\ near (e_precision E) c z.
Proof.
  intros Hr H Hg Hsol z Hz Hin. pose proof H as Hcopy.
  destruct (calcRoots_events E NewtonV fuel r s s' l (Done tt) Hr H) as [K|(phi & He & K)].
  { exfalso. apply calcRoots_runs in H.
    destruct H as [(e & H & C)|(m & l1 & l2 & H1 & H2 & ->)]; [discriminate|].
    pose proof (good_app zeros _ _ Hg) as [G1 G2].
    destruct (good_est E zeros _ _ _ H1 G1) as (_ & m' & [= <-] & GA).
    destruct (runs_not_lost E zeros _ _ _ _ _ _ H2 Hr GA G2 eq_refl z Hz Hin) as (q & p & Hq & _).
    destruct Hq as [Hq|[Hq|Hq]]; destruct (K _ (in_or_app _ _ _ (or_intror Hq))) as (mm & [C|(x & C & _)]);
      discriminate. }
  apply calcRoots_runs in H.
  destruct H as [(e & H & C)|(m & l1 & l2 & H1 & H2 & El)]; [discriminate|]. subst l.
  pose proof (good_app zeros _ _ Hg) as [G1 G2].
  destruct (good_est E zeros _ _ _ H1 G1) as (_ & m' & [= <-] & GA).
  destruct (runs_not_lost E zeros _ _ _ _ _ _ H2 Hr GA G2 eq_refl z Hz Hin) as (q & p & Hq & Hqz & Hgq).
  assert (NZ : forall c k, k <> 0 -> In (EvRoot (c, k)) (l1 ++ l2) -> In (c, k) (located (l1 ++ l2))).
  { intros c k Hk Hi. unfold located. apply filter_In. split; [apply in_roots_of, Hi|].
    cbn. destruct (Z.eqb_spec k 0); [contradiction|reflexivity]. }
  destruct Hq as [Hq|[Hq|Hq]].
  - pose proof (K _ (in_or_app _ _ _ (or_intror Hq))) as (Q1 & Q2 & Q3 & Q4 & Q5).
    exists (center q), (round_half_even p). split; [|apply near_center; assumption].
    apply NZ.
    + assert (1 <= round_half_even p); [|lia].
      change 1 with (round_half_even TWO_PI). apply round_half_even_mono, Q4.
    + apply in_or_app. right. eapply runs_report_root; eassumption.
  - pose proof (K _ (in_or_app _ _ _ (or_intror Hq))) as (Q1 & Q2 & Q3 & _ & Q5 & Q6). cbn in Q6.
    unfold TWO_PI, FOUR_PI, deltaRe, deltaIm in Q6. destruct Q6 as (T1 & T2 & T3 & T4).
    assert (Hc : count zeros q = 1%nat).
    { destruct Hgq as [_ G]. destruct (Nat.eq_dec (count zeros q) 0) as [C0|C0].
      { exfalso. eapply count_zero; eassumption. }
      destruct (G ltac:(lia)) as [_ G']. apply Qabs_Qlt_condition in G'.
      destruct (le_lt_dec (count zeros q) 1) as [|C2]; [lia|]. exfalso.
      assert (2 <= inject_Z (Z.of_nat (count zeros q)))%Q; [|lra].
      change 2%Q with (inject_Z 2). rewrite <- Zle_Qle. lia. }
    destruct (Hsol q z T3 T4 Hc Hz Hqz) as (w & Hw & Hn).
    exists w, 1. split; [|exact Hn]. apply NZ; [discriminate|].
    apply in_or_app. right. eapply runs_newton_root; eassumption.
  - pose proof (K _ (in_or_app _ _ _ (or_intror Hq))) as (_ & _ & _ & C & _). discriminate.
Qed.

(** ** C29 *)
Lemma C29_lemma {S} (E : env S) v fuel r s s' l o : proper r -> e_progress E = true ->
  calcRoots E v fuel r s = (s', l, o) ->
  (forall a, In a (advances_of l) -> 0 <= a)%Q /\
  (Qsum (advances_of l) <= area r)%Q /\
  (o = Done tt -> Qsum (advances_of l) == area r - Qsum (map area (reported l)))%Q /\
  (o = Done tt -> Qsum (advances_of l) == area r <-> Qsum (map area (reported l)) == 0)%Q.
Proof.
  intros Hr Hg H. pose proof (calcRoots_events E v fuel r s s' l o Hr H) as Hev.
  assert (Hp : forall q, In q (reported l) -> proper q).
  { intros q Hq. unfold reported in Hq. apply in_flat_map in Hq. destruct Hq as (ev & He & Hq).
    destruct ev; cbn in Hq; try tauto. destruct Hq as [<-|[]].
    destruct Hev as [K|(phi0 & _ & K)].
    - destruct (K _ He) as (m & [C|(x & C & _)]); discriminate.
    - destruct (K _ He) as (_ & K' & _). exact K'. }
  assert (Hn : (0 <= Qsum (map area (reported l)))%Q).
  { clear -Hp. induction (reported l) as [|q ls IH]; cbn; [lra|].
    assert (0 <= area q)%Q by (apply area_nonneg, Hp; left; reflexivity).
    assert (0 <= fold_right Qplus 0 (map area ls))%Q by (apply IH; intros; apply Hp; right; assumption). lra. }
  assert (Hpos : forall a, In a (advances_of l) -> (0 <= a)%Q).
  { intros a Ha. apply in_flat_map in Ha. destruct Ha as (ev & He & Ha).
    destruct ev; cbn in Ha; try tauto. destruct Ha as [<-|[]]. destruct Hev as [K|(phi0 & _ & K)].
    - destruct (K _ He) as (m & [C|(x & C & _)]); discriminate.
    - destruct (K _ He) as (_ & K'). exact K'. }
  split; [exact Hpos|].
  assert (G : (Qsum (advances_of l) + Qsum (map area (reported l)) <= area r)%Q /\
     (o = Done tt -> Qsum (advances_of l) + Qsum (map area (reported l)) == area r)%Q).
  { clear Hpos Hn Hp Hev. apply calcRoots_runs in H. destruct H as [(e & H & ->)|(m & l1 & l2 & H1 & H2 & ->)].
    - apply est_logs in H. destruct H as (_ & -> & -> & _). cbn.
      pose proof (area_nonneg _ Hr). split; [lra|discriminate].
    - pose proof (est_logs E _ _ _ _ H1) as (_ & L1 & L2 & _).
      rewrite advances_app, reported_app, L1, L2. cbn [app]. eapply runs_progress; eassumption. }
  destruct G as [G1 G2]. split; [lra|]. split; intro Hd; specialize (G2 Hd); [lra|].
  split; intro; lra.
Qed.

(** ** C30 *)
Lemma C30_no_derivative {S} (E : env S) n r s s' l o : e_has_df E = false ->
  calcRoots E PolyV (Datatypes.S n) r s = (s', l, o) ->
  (forall z k, In (z, k) (roots_of l) -> k = 0 /\ contour_zero E z) /\
  advances_of l = [] /\ handled l = [] /\
  (o = Raised ValueError \/ exists e, o = Raised e /\ In (EvMoment 0 r (Err e)) l).
Proof.
  intros Hdf H. apply calcRoots_runs in H. destruct H as [(e & H & ->)|(m & l1 & l2 & H1 & H2 & ->)].
  - apply est_logs in H. destruct H as (A1 & _ & A3 & _ & A5 & A6).
    split; [exact A5|]. split; [exact A3|]. split; [exact A1|]. right. eauto.
  - assert (K : l2 = [] /\ o = Raised ValueError).
    { inversion H2; subst; try (match goal with H : PolyV = PolyV -> _ |- _ => specialize (H eq_refl) end);
        try congruence; auto. }
    destruct K as [-> ->]. rewrite app_nil_r.
    apply est_logs in H1. destruct H1 as (A1 & _ & A3 & _ & A5 & A6). auto.
Qed.

Lemma C30_no_moments {S} (E : env S) fuel r s s' l o :
  calcRoots E PolyV fuel r s = (s', l, o) -> proper r ->
  (forall k q s0, 1 <= k -> snd (e_est E k q s0) = Err NotImplementedError) ->
  (forall z k, In (z, k) (roots_of l) ->
     (k = 0 /\ contour_zero E z) \/
     (exists q t, estimate E l q t /\ sub_rect q r /\ sub_tolerance (e_precision E) q /\
        z = center q /\ 1 <= k /\ (Qabs (t - inject_Z k) <= 1 # 2)%Q)) /\
  (forall q t, e_has_df E = true -> estimate E l q t -> ~ sub_tolerance (e_precision E) q ->
     (4 # 5 < t)%Q -> (t < 34 # 10)%Q -> o = OutOfFuel \/ o = Raised NotImplementedError).
Proof.
  intros H Hr HE. split.
  - intros z k Hin. destruct (origins E PolyV fuel r s s' l o z k Hr H Hin) as [K|[K|[[C _]|[_ K]]]];
      try discriminate; auto.
    exfalso. destruct K as (q & t & degree & ms & rts & _ & _ & _ & _ & Hd & _ & Hl & Hm & _).
    specialize (Hm 0%nat ltac:(lia)).
    assert (C : forall ev, In ev l -> match ev with EvMoment 1 q m => m = Err NotImplementedError | _ => True end).
    { clear -H HE. apply calcRoots_runs in H.
      assert (EE : forall k q l m, est E k q l m -> forall ev, In ev l ->
         match ev with EvMoment 1 q m => m = Err NotImplementedError | _ => True end).
      { intros k q l' m He ev Hi. pose proof (est_in E _ _ _ _ _ He Hi) as [->|(z & -> & _)]; [|exact I].
        destruct k as [|[| |]|]; auto. destruct He as (s0 & s1 & zs & He & _).
        specialize (HE 1 q s0 ltac:(lia)). rewrite He in HE. exact HE. }
      assert (MM : forall q k n l ms, moms E q k n l ms -> forall ev, In ev l ->
         match ev with EvMoment 1 q m => m = Err NotImplementedError | _ => True end).
      { induction 1 as [k|k n l' e He|k n l1 m l2 ms He _ IH|k n l1 m l2 e He _ IH]; intros ev Hi.
        - destruct Hi.
        - eapply EE; eassumption.
        - apply in_app_or in Hi. destruct Hi as [Hi|Hi]; [exact (EE _ _ _ _ He _ Hi)|exact (IH _ Hi)].
        - apply in_app_or in Hi. destruct Hi as [Hi|Hi]; [exact (EE _ _ _ _ He _ Hi)|exact (IH _ Hi)]. }
      assert (AA : forall a ev, In ev (adv E a) ->
         match ev with EvMoment 1 q m => m = Err NotImplementedError | _ => True end).
      { intros a ev Hi. apply in_adv in Hi. destruct Hi as [_ ->]. exact I. }
      assert (RR : forall n r phi l o, runs E PolyV n r phi l o -> forall ev, In ev l ->
         match ev with EvMoment 1 q m => m = Err NotImplementedError | _ => True end).
      { clear H. induction 1 as [r0 phi|n r0 phi Hv Hdf|n r0 phi Hdf Hp|n r0 phi Hdf Hp Hs|n r0 phi l' o' Hv Hs Hz HN
        |n r0 phi l' o' Hv Hdf Hs Hz HP|n r0 phi A B l' e Hdf Hp Hz HAB H1
        |n r0 phi A B l1 m l2 o' Hdf Hp Hz HAB H1 H2 IH2 Ho
        |n r0 phi A B l1 m l2 l3 e Hdf Hp Hz HAB H1 H2 IH2 H3
        |n r0 phi A B l1 m l2 l3 m2 l4 o' Hdf Hp Hz HAB H1 H2 IH2 H3 H4 IH4]; intros ev Hi.
        - destruct Hi.
        - destruct Hi.
        - destruct Hi as [<-|Hi]; [exact I|eapply AA; eassumption].
        - destruct Hi as [<-|[<-|Hi]]; [exact I|exact I|eapply AA; eassumption].
        - discriminate.
        - destruct HP as (l1 & ms & HM & K).
          destruct ms as [ms|e]; [destruct (e_polyroots E _)|]; destruct K as [K1 K2]; subst.
          + apply in_app_or in Hi. destruct Hi as [Hi|[<-|Hi]]; [eapply MM; eassumption|exact I|].
            apply in_app_or in Hi. destruct Hi as [Hi|Hi]; [|eapply AA; eassumption].
            apply in_map_iff in Hi. destruct Hi as (x & <- & _). exact I.
          + eapply MM; eassumption.
          + eapply MM; eassumption.
        - eapply EE; eassumption.
        - apply in_app_or in Hi. destruct Hi as [Hi|Hi]; [exact (EE _ _ _ _ H1 _ Hi)|exact (IH2 _ Hi)].
        - rewrite !in_app_iff in Hi. destruct Hi as [Hi|[Hi|Hi]]; [|exact (IH2 _ Hi)|];
            [exact (EE _ _ _ _ H1 _ Hi)|exact (EE _ _ _ _ H3 _ Hi)].
        - rewrite !in_app_iff in Hi. destruct Hi as [Hi|[Hi|[Hi|Hi]]]; [|exact (IH2 _ Hi)| |exact (IH4 _ Hi)];
            [exact (EE _ _ _ _ H1 _ Hi)|exact (EE _ _ _ _ H3 _ Hi)]. }
      intros ev Hi. destruct H as [(e & H & _)|(m & l1 & l2 & H1 & H2 & ->)].
      - eapply EE; eassumption.
      - apply in_app_or in Hi. destruct Hi as [Hi|Hi]; [exact (EE _ _ _ _ H1 _ Hi)|exact (RR _ _ _ _ _ H2 _ Hi)]. }
    specialize (C _ Hm). cbn in C. discriminate.
  - intros q t Hdf (m & Hi & ->) Hs H4 H34.
    destruct o as [[]|x|]; [right|right|left; reflexivity].
    + apply calcRoots_runs in H. destruct H as [(e & H & C)|(m0 & l1 & l2 & H1 & H2 & ->)]; [discriminate|].
      destruct (runs_no_higher_moments E _ _ _ _ _ H2 HE) as [_ K].
      destruct (K ltac:(discriminate) Hdf) as [K1 K2]. apply in_app_or in Hi. destruct Hi as [Hi|Hi].
      * pose proof (est_in E _ _ _ _ _ H1 Hi) as [C|(z & C & _)]; [|discriminate]. injection C as -> ->.
        apply K1; unfold TWO_PI, MAX_PHASE; try assumption; lra.
      * eapply K2; unfold TWO_PI, MAX_PHASE; try eassumption; lra.
    + apply calcRoots_runs in H. destruct H as [(e & H & C)|(m0 & l1 & l2 & H1 & H2 & ->)].
      { pose proof (est_in E _ _ _ _ _ H Hi) as [C'|(z & C' & _)]; discriminate. }
      destruct (runs_no_higher_moments E _ _ _ _ _ H2 HE) as [_ K].
      destruct (K ltac:(discriminate) Hdf) as [K1 K2]. apply in_app_or in Hi. destruct Hi as [Hi|Hi].
      * pose proof (est_in E _ _ _ _ _ H1 Hi) as [C|(z & C & _)]; [|discriminate]. injection C as -> ->.
        apply K1; unfold TWO_PI, MAX_PHASE; try assumption; lra.
      * eapply K2; unfold TWO_PI, MAX_PHASE; try eassumption; lra.
Qed.
