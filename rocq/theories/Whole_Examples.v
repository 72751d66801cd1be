(** * A search all of whose hypotheses are met *)
From Coq Require Import Reals Qreals Qminmax.
From Verif Require Import PyBase Rounding_Model Rounding_Proofs Container_Model Container_Spec Finder_Model
  Refine_Model Refine_Spec Zeros_Spec Cache_Model Sum_Model Sum_Spec Arg_Spec Arg_Proofs Arg_Examples
  EndToEnd_Model EndToEnd_Spec EndToEnd_Examples Whole_Model Whole_Spec Whole_Proofs.
From Coq Require Import Lqa Lra.
Open Scope R_scope.

(** Rounding to odd multiples of 1/2000. *)
Definition odd_turns (p : R) : Q := (2 * Int_part (1000 * (p / (2 * PI))) + 1) # 2000.
Lemma odd_turns_faithful : faithful odd_turns (1 / 2000).
Proof.
  split.
  - intro p. unfold odd_turns. set (t := p / (2 * PI)). destruct (base_Int_part (1000 * t)) as [A B].
    set (k := Int_part (1000 * t)) in *.
    assert (E : Q2R ((2 * k + 1) # 2000) = (2 * IZR k + 1) / 2000).
    { unfold Q2R. cbn [Qnum Qden]. rewrite plus_IZR, mult_IZR. reflexivity. }
    rewrite E. apply Rabs_le. lra.
  - intro p. unfold odd_turns, Qeq. cbn [Qnum Qden]. lia.
Qed.

(** A double zero at (1 + i) / 15, searched for in [0, 1/10] x [0, 1/10]. *)
Definition twin : list point := [(1 / 15, 1 / 15); (1 / 15, 1 / 15)].
Definition small_x : rctx := serial_context demo_f None (0, 0)%Z (0, 1 # 10)%Q (0, 1 # 10)%Q None.

(** The cells: sides on multiples of 1/20, shifted by [o]. *)
Definition shapes : list (Z * Z) :=
  [(32, 16); (16, 16); (16, 8); (8, 16); (8, 8); (8, 4); (4, 4); (4, 2); (2, 2); (2, 1); (1, 1)]%Z.
Definition tw (a : Z) : Q := (inject_Z a / 20)%Q.
Definition placed (o : Q * Q) (q : rect) : Prop := exists a c w h, In (w, h) shapes /\
  (x1 q == fst o + tw a /\ x2 q == fst o + tw (a + w) /\ y1 q == snd o + tw c /\ y2 q == snd o + tw (c + h))%Q.

Lemma pow10_m1 : (pow10 (-1) == 1 # 10)%Q.
Proof. reflexivity. Qed.

Lemma tw_diff o a w : (o + tw (a + w) - (o + tw a) == inject_Z w / 20)%Q.
Proof. unfold tw. rewrite inject_Z_plus. field. Qed.
Lemma tw_mid o a w : (exists k, w = 2 * k)%Z -> ((o + tw a + (o + tw (a + w))) / 2 == o + tw (a + w / 2))%Q.
Proof.
  intros [k ->]. rewrite Z.mul_comm, Z.div_mul by lia. unfold tw. rewrite !inject_Z_plus, inject_Z_mult.
  change (inject_Z 2) with 2%Q. field.
Qed.

Lemma placed_dims o q a c w h :
  (x1 q == fst o + tw a /\ x2 q == fst o + tw (a + w) /\ y1 q == snd o + tw c /\ y2 q == snd o + tw (c + h))%Q ->
  (x2 q - x1 q == inject_Z w / 20 /\ y2 q - y1 q == inject_Z h / 20)%Q.
Proof. intros (A & B & C & D). rewrite A, B, C, D. split; apply tw_diff. Qed.

Lemma shape_cases w h : In (w, h) shapes ->
  (In (w / 2, h)%Z shapes /\ w = 2 * (w / 2) /\ h < w)%Z \/ (In (w, h / 2)%Z shapes /\ h = 2 * (h / 2) /\ w <= h)%Z \/
  (w = 1 /\ h = 1)%Z.
Proof.
  intros [H|[H|[H|[H|[H|[H|[H|[H|[H|[H|[H|[]]]]]]]]]]]]; injection H as <- <-; cbn [shapes In];
    repeat split; try lia; repeat (first [left; repeat split; tauto || reflexivity || lia | right]); auto.
Qed.

Lemma placed_wider q w h : (x2 q - x1 q == inject_Z w / 20 /\ y2 q - y1 q == inject_Z h / 20)%Q ->
  wider (1, 1)%Z q <-> (h < w)%Z.
Proof.
  intros [A B]. unfold wider. cbn [fst snd]. change (- (1))%Z with (-1)%Z. rewrite A, B.
  setoid_replace (inject_Z h / 20 / pow10 (-1))%Q with (inject_Z h / 2)%Q by (rewrite pow10_m1; field).
  setoid_replace (inject_Z w / 20 / pow10 (-1))%Q with (inject_Z w / 2)%Q by (rewrite pow10_m1; field).
  rewrite Zlt_Qlt. unfold Qdiv. split; intro H.
  - apply (Qmult_lt_r _ _ (/ 2)); [reflexivity|exact H].
  - apply Qmult_lt_r; [reflexivity|exact H].
Qed.

Lemma placed_cells o r q : placed o r -> cell_of (1, 1)%Z r q -> placed o q.
Proof.
  assert (SUB : forall q, (x2 q - x1 q == inject_Z 1 / 20 /\ y2 q - y1 q == inject_Z 1 / 20)%Q -> sub_tolerance (1, 1)%Z q).
  { intros q0 [A B]. split; cbn [fst snd]; change (- (1))%Z with (-1)%Z; rewrite ?A, ?B, pow10_m1; reflexivity. }
  intro HP.
  induction 1 as [|q _ (a & c & w & h & HS & HC) NS W|q _ (a & c & w & h & HS & HC) NS W
    |q _ (a & c & w & h & HS & HC) NS W|q _ (a & c & w & h & HS & HC) NS W].
  1:{ exact HP. }
  all: pose proof (placed_dims o q a c w h HC) as HD; rewrite (placed_wider q w h HD) in W;
    destruct (shape_cases w h HS) as [(S1 & S2 & S3)|[(S1 & S2 & S3)|[-> ->]]]; try (exfalso; lia);
    try (exfalso; apply NS, SUB; exact HD); destruct HC as (A & B & C & D).
  - exists a, c, (w / 2)%Z, h. split; [exact S1|]. cbn [x1 x2 y1 y2]. rewrite A, B, tw_mid by eauto.
    repeat split; try reflexivity; assumption.
  - exists (a + w / 2)%Z, c, (w / 2)%Z, h. split; [exact S1|]. cbn [x1 x2 y1 y2]. rewrite A, B, tw_mid by eauto.
    replace (a + w / 2 + w / 2)%Z with (a + w)%Z by lia. repeat split; try reflexivity; assumption.
  - exists a, c, w, (h / 2)%Z. split; [exact S1|]. cbn [x1 x2 y1 y2]. rewrite C, D, tw_mid by eauto.
    repeat split; try reflexivity; assumption.
  - exists a, (c + h / 2)%Z, w, (h / 2)%Z. split; [exact S1|]. cbn [x1 x2 y1 y2]. rewrite C, D, tw_mid by eauto.
    replace (c + h / 2 + h / 2)%Z with (c + h)%Z by lia. repeat split; try reflexivity; assumption.
Qed.

Lemma Q2R_tw a : Q2R (0 + tw a) = IZR a / 20.
Proof. rewrite Q2R_plus, RMicromega.Q2R_0. unfold tw. rewrite Q2R_div by discriminate. unfold inject_Z, Q2R. cbn. lra. Qed.

(** A coordinate m / 60 that is not a multiple of 1/20. *)
Lemma tw_away m k : (m mod 3 <> 0)%Z -> 1 / 60 <= Rabs (IZR k / 20 - IZR m / 60).
Proof.
  intro Hm. replace (IZR k / 20 - IZR m / 60) with (IZR (3 * k - m) / 60) by (rewrite minus_IZR, mult_IZR; lra).
  assert (N : (3 * k - m <> 0)%Z) by (intro C; apply Hm; replace m with (k * 3)%Z by lia; apply Z.mod_mul; lia).
  destruct (Z_le_gt_dec (3 * k - m) 0) as [H|H].
  - assert (H' : (3 * k - m <= -1)%Z) by lia. apply IZR_le in H'. rewrite Rabs_left1 by lra. lra.
  - assert (H' : (1 <= 3 * k - m)%Z) by lia. apply IZR_le in H'. rewrite Rabs_right by lra. lra.
Qed.

Lemma grid_distance q a b c d mx my : (mx mod 3 <> 0)%Z -> (my mod 3 <> 0)%Z ->
  (x1 q == 0 + tw a)%Q -> (x2 q == 0 + tw b)%Q -> (y1 q == 0 + tw c)%Q -> (y2 q == 0 + tw d)%Q ->
  border_distance (1 / 60) q (IZR mx / 60, IZR my / 60).
Proof.
  intros Mx My A B C D p [Hin Hns].
  destruct p as [s t]. unfold zin, zstrict in *. cbn [fst snd] in *.
  rewrite (Qeq_eqR _ _ A), (Qeq_eqR _ _ B), (Qeq_eqR _ _ C), (Qeq_eqR _ _ D) in Hin, Hns.
  rewrite !Q2R_tw in Hin, Hns.
  assert (X : exists k, s = IZR k / 20 \/ t = IZR k / 20).
  { destruct (Req_dec s (IZR a / 20)) as [E|N1]; [eauto|].
    destruct (Req_dec s (IZR b / 20)) as [E|N2]; [eauto|].
    destruct (Req_dec t (IZR c / 20)) as [E|N3]; [eauto|].
    destruct (Req_dec t (IZR d / 20)) as [E|N4]; [eauto|].
    exfalso. apply Hns. lra. }
  apply dist_lower; [lra|]. destruct X as [k X].
  assert (Y : forall m, (m mod 3 <> 0)%Z -> 1 / 60 * (1 / 60) <= (IZR k / 20 - IZR m / 60) * (IZR k / 20 - IZR m / 60)).
  { intros m Hm. pose proof (tw_away m k Hm) as T.
    rewrite <- (Rabs_right ((IZR k / 20 - IZR m / 60) * (IZR k / 20 - IZR m / 60))).
    - rewrite Rabs_mult. apply Rmult_le_compat; lra.
    - apply Rle_ge. apply Rle_0_sqr. }
  pose proof (Y mx Mx) as Y1. pose proof (Y my My) as Y2.
  pose proof (Rle_0_sqr (s - IZR mx / 60)) as S1. pose proof (Rle_0_sqr (t - IZR my / 60)) as S2. unfold Rsqr in S1, S2.
  destruct X as [-> | ->]; lra.
Qed.

Lemma placed_distance q mx my : (mx mod 3 <> 0)%Z -> (my mod 3 <> 0)%Z -> placed (0, 0)%Q q ->
  border_distance (1 / 60) q (IZR mx / 60, IZR my / 60).
Proof.
  intros Mx My (a & c & u & h & HS & (A & B & C & D)).
  exact (grid_distance q a (a + u) c (c + h) mx my Mx My A B C D).
Qed.

Lemma placed_size o q : placed o q -> Q2R (x2 q - x1 q) <= 16 / 10 /\ Q2R (y2 q - y1 q) <= 8 / 10.
Proof.
  intros (a & c & u & h & HS & HC). destruct (placed_dims o q a c u h HC) as [A B].
  rewrite (Qeq_eqR _ _ A), (Qeq_eqR _ _ B).
  assert (Z : forall z, Q2R (inject_Z z / 20) = IZR z / 20).
  { intro z. rewrite Q2R_div by discriminate. unfold inject_Z, Q2R. cbn. lra. }
  rewrite !Z.
  assert (u <= 32 /\ h <= 16)%Z as [U V].
  { destruct HS as [H|[H|[H|[H|[H|[H|[H|[H|[H|[H|[H|[]]]]]]]]]]]]; injection H as <- <-; lia. }
  apply IZR_le in U, V. lra.
Qed.

Lemma small_placed : placed (0, 0)%Q (rect_of small_x).
Proof. exists (-2)%Z, (-6)%Z, 8%Z, 16%Z. split; [cbn; tauto|]. vm_compute. repeat split. Qed.

Lemma twin_distance q w : placed (0, 0)%Q q -> In w twin -> border_distance (1 / 60) q w.
Proof.
  intros HP Hw.
  assert (W : w = (IZR 4 / 60, IZR 4 / 60)) by (destruct Hw as [<-|[<-|[]]]; f_equal; lra).
  subst w. apply placed_distance; [discriminate|discriminate|exact HP].
Qed.

Lemma twin_resolved n : (2001 <= Z.of_nat n)%Z -> resolved (zero_product twin) twin n (1 / 2000) (1, 1)%Z (rect_of small_x).
Proof.
  intro Hn. exists 0, (1 / 10). split; [apply polynomial_factorised|]. split.
  - intros q Hq. apply (placed_cells _ _ _ small_placed) in Hq. exists (1 / 60). split; [lra|]. split; [intros w Hw; exact (twin_distance q w Hq Hw)|].
    assert (N : 2000 <= INR (n - 1)). { rewrite INR_IZR_INZ. apply IZR_le. lia. }
    destruct (placed_size _ q Hq) as [A B].
    assert (X : forall u, u <= 16 / 10 -> u / INR (n - 1) * (0 + INR (List.length twin) / (1 / 60)) <= 1 / 10).
    { intros u Hu. replace (INR (List.length twin)) with 2 by (cbn; lra).
      replace (u / INR (n - 1) * (0 + 2 / (1 / 60))) with ((120 * u) / INR (n - 1)) by (field; lra).
      apply Rmult_le_reg_r with (INR (n - 1)); [lra|]. unfold Rdiv. rewrite Rmult_assoc, Rinv_l by lra. lra. }
    split; apply X; lra.
  - assert (P3 := PI_3).
    assert (4 * (1 / 10) / PI <= 4 / 30).
    { apply Rmult_le_reg_r with PI; [lra|]. unfold Rdiv. rewrite Rmult_assoc, Rinv_l by lra. lra. }
    lra.
Qed.

Lemma twin_dense n : (2001 <= Z.of_nat n)%Z -> dense n (1, 1)%Z (rect_of small_x).
Proof.
  intro Hn. unfold dense.
  assert (E : (y2 (rect_of small_x) - y1 (rect_of small_x) == 8 # 10)%Q) by (vm_compute; reflexivity).
  rewrite E. change (- snd (1, 1)%Z)%Z with (-1)%Z. rewrite pow10_m1.
  assert (N : (inject_Z 2000 <= inject_Z (Z.of_nat (n - 1)))%Q) by (rewrite <- Zle_Qle; lia).
  change (inject_Z 2000) with (2000 # 1)%Q in N. Lqa.lra.
Qed.

Lemma twin_separated t P : separated t P twin.
Proof. intros z1 z2 H1 H2 _ _. destruct H1 as [<-|[<-|[]]], H2 as [<-|[<-|[]]]; reflexivity. Qed.

Lemma point_dec (a b : point) : {a = b} + {a <> b}.
Proof.
  destruct a as [a1 a2], b as [b1 b2]. destruct (Req_EM_T a1 b1) as [->|N]; [|right; congruence].
  destruct (Req_EM_T a2 b2) as [->|N]; [left; reflexivity|right; congruence].
Qed.

(** The search finds the double zero, as one pair with order 2. *)
Lemma twin_search n fuel depth debug iter :
  (2001 <= Z.of_nat n)%Z -> (100 * n + 3 <= fuel)%nat -> (8 < depth)%nat -> iteration_order iter ->
  let E := sum_env odd_turns (zero_product twin) (1 / 100) (1 # 10000000000) n (1, 1)%Z fuel debug
    (fun _ _ => Err RuntimeError) (fun _ => Err RuntimeError) (fun _ => Err RuntimeError) false false in
  let out := calculateRoots demo_f None (0, 0)%Z (argument_algorithm E Simple depth (fun _ => true) new_estimator)
    (0, 1 # 10)%Q (0, 1 # 10)%Q None (rc_init None (3, 3)%Z) in
  snd out = Ok tt /\
  exists c, In (c, 2%Z) (reported_pairs iter (fst out)) /\ within 1 (1, 1)%Z c (1 / 15, 1 / 15) /\
    forall c' k', In (c', k') (reported_pairs iter (fst out)) -> (c', k') = (c, 2%Z).
Proof.
  intros Hn Hf Hd HI E out.
  assert (N2 : (2 <= n)%nat) by lia.
  destruct (C70_complete_lemma (zero_product twin) twin odd_turns (1 / 2000) (1 / 100) (1 # 10000000000) n (1, 1)%Z fuel debug
    (fun _ _ => Err RuntimeError) (fun _ => Err RuntimeError) (fun _ => Err RuntimeError) false false
    ltac:(lra) N2 Hf odd_turns_faithful depth (fun _ => true) demo_f None (0, 0)%Z (0, 1 # 10)%Q (0, 1 # 10)%Q None
    None (3, 3)%Z iter 4 4 HI (twin_resolved n Hn) (twin_dense n Hn)) as (A & B & C & D & F).
  - vm_compute. reflexivity.
  - vm_compute. reflexivity.
  - lia.
  - fold E in A, B, C, D, F. fold out in A, B, C, D, F.
    split; [exact A|]. specialize (F (twin_separated _ _)). specialize (D (twin_separated _ _)).
    change (search_precision (0, 0)%Z None) with (1, 1)%Z in *.
    destruct (F (1 / 15, 1 / 15) (or_introl eq_refl)) as (c & k & F1 & F2 & F3 & F4).
    { unfold requested. cbn [fst snd]. change (Qmin 0 (1 # 10)) with 0%Q. change (Qmax 0 (1 # 10)) with (1 # 10)%Q.
      unfold Q2R. cbn. lra. }
    assert (K : k = 2%Z).
    { rewrite (F3 point_dec).
      cbn [twin count_occ]. destruct (point_dec (1 / 15, 1 / 15) (1 / 15, 1 / 15)) as [_|N]; [reflexivity|congruence]. }
    subst k. exists c. split; [exact F1|]. split; [exact F2|].
    intros c' k' H'. destruct (C c' k' H') as (_ & z & Hz & _ & HW). apply (F4 c' k' H').
    destruct Hz as [<-|[<-|[]]]; exact HW.
Qed.
