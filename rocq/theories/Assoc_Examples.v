(** * Searches of the associated-polynomial algorithm, all of whose hypotheses are met *)
From Coq Require Import Permutation Reals Qreals Qminmax.
From Verif Require Import PyBase Rounding_Model Rounding_Proofs Container_Model Container_Spec Finder_Model Poly_Model
  Refine_Model Refine_Spec Zeros_Spec Zeros_Proofs Cache_Model Sum_Model Sum_Spec Quad_Spec Arg_Spec Moment_Spec
  EndToEnd_Model EndToEnd_Spec Refine_Examples EndToEnd_Examples Whole_Examples Qsearch_Model Qsearch_Spec Qsearch_Examples
  Modulus Assoc_Perturb Assoc_Coeff Assoc_Spec Assoc_Proofs3 Assoc_Proofs4.
From Coq Require Import Lqa Lra.
Open Scope R_scope.

(** ** A double and a simple zero, moments off by 1e-10 *)
Fixpoint cpow (z : cplx) (k : nat) : cplx := match k with O => c1 | S k' => cmul z (cpow z k') end.
Definition qmoment (zs : list cplx) (k : nat) (r : rect) : cplx := fold_right cadd c0 (map (fun z => cpow z k) (filter (qin r) zs)).
Definition tiny : cplx := (1 # 10000000000, 0)%Q.

(** A solver for the polynomials of the example: exact for degree 1, it knows the answers for
    degree 2 and 3. *)
Definition demo_solver (p : list cplx) : res (list cplx) :=
  match p with
  | [a; _] => Ok [copp a]
  | [_; _; _] => Ok [(1 # 3, 1 # 3); (1 # 3, 1 # 3)]%Q
  | [_; _; _; _] => Ok demo_qzeros
  | _ => Err ValueError
  end.
Definition moment_env (P : Z * Z) : env unit :=
  mkEnv (S := unit)
    (fun k r _ => (tt, [], Ok (if Z.eqb k 0 then (inject_Z (Z.of_nat (qcount demo_qzeros r)), 0%Q)
                               else cadd tiny (qmoment demo_qzeros (Z.to_nat k) r))))
    (fun _ _ s => s) (fun _ => false) (fun s => s)
    (fun _ _ => Err RuntimeError) (fun _ => Err RuntimeError) demo_solver true P true.

Lemma rp_pow z k : real_point (cpow z k) = power (real_point z) k.
Proof. induction k as [|k IH]; [apply rp_1|]. cbn [cpow power]. rewrite rp_mul, IH. reflexivity. Qed.
Lemma filter_q zs q : filter (zinb q) (map qpoint zs) = map qpoint (filter (qin q) zs).
Proof.
  induction zs as [|z zs IH]; [reflexivity|]. cbn [map filter].
  assert (H : zinb q (qpoint z) = qin q z).
  { destruct (qin q z) eqn:Hq; [apply zinb_true, qin_zin, Hq|apply zinb_false; rewrite <- qin_zin; congruence]. }
  rewrite H, IH. destruct (qin q z); reflexivity.
Qed.
Lemma rp_moment zs k q : real_point (qmoment zs k q) = power_sum (map qpoint zs) k q.
Proof.
  unfold qmoment, power_sum. rewrite filter_q. generalize (filter (qin q) zs). intro l.
  induction l as [|z l IH]; cbn [map fold_right csum]; [apply rp_0|].
  rewrite rp_add, IH, rp_pow. reflexivity.
Qed.

Lemma moment_reliable P r : decimal_rect r -> reliable (moment_env P) demo_zeros P r.
Proof.
  intros Hr q s Hq. split; [exact (proj1 (demo_reliable P r Hr q s Hq))|].
  destruct (proj2 (demo_reliable P r Hr q s Hq)) as (s' & zs & m & A & B & C).
  exists tt, [], (inject_Z (Z.of_nat (qcount demo_qzeros q)), 0%Q).
  cbn [e_est exact_env] in A. injection A as <- <- <-.
  split; [reflexivity|]. split; [exact B|]. intros c [].
Qed.

Definition dd : R := 1 / 10 ^ 9.
Lemma moment_within P r : moments_within dd (moment_env P) demo_zeros P r.
Proof.
  intros q k s Hq Hc Hk. exists tt, [], (cadd tiny (qmoment demo_qzeros k q)).
  split; [|split; [|intros c []]].
  - cbn [e_est moment_env]. destruct (Z.eqb_spec (Z.of_nat k) 0) as [C|_]; [lia|]. rewrite Nat2Z.id. reflexivity.
  - rewrite rp_add, rp_moment, apart_md. fold demo_zeros. generalize (power_sum demo_zeros k q). intro w.
    replace (minus_cR (plus_cR (real_point tiny) w) w) with (real_point tiny) by cring.
    eapply Rle_trans; [apply md_sum|]. unfold real_point, tiny, re, im, Q2R, dd. cbn [fst snd Qnum Qden].
    rewrite !Rabs_pos_eq by lra. lra.
Qed.

Definition zd : cplx := (1 # 3, 1 # 3)%Q.
Definition zs1 : cplx := (5 # 3, 4 # 3)%Q.
(** The zeros in a cell. *)
Lemma demo_subsets q : let l := filter (zinb q) demo_zeros in
  l = [] \/ l = [qpoint zs1] \/ l = [qpoint zd; qpoint zd] \/ l = [qpoint zd; qpoint zd; qpoint zs1].
Proof.
  cbv zeta. unfold demo_zeros. rewrite filter_q. cbn [demo_qzeros filter]. fold zd zs1.
  destruct (qin q zd), (qin q zs1); cbn [map]; auto.
Qed.

Lemma close_weaken a b p c : a <= b -> close a p c -> close b p c.
Proof. intros H F. unfold close in *. induction F; constructor; [lra|assumption]. Qed.

Lemma demo_stable P r : stably_solves 3 dd (81 * dd) demo_solver demo_zeros P r.
Proof.
  intros q p Hq Hn HC. unfold count in *. assert (D0 : 0 < dd) by (unfold dd; lra).
  destruct (demo_subsets q) as [E|[E|[E|E]]]; rewrite E in *; cbn [List.length coefficient_error] in *; [lia| | |].
  - cbn [coefficients_of map add_coefficients] in HC.
    inversion HC as [|a c0' l1 l1' X1 H1 E1 E1']; subst. inversion H1 as [|b c1' l2 l2' X2 H2 E2 E2']; subst. inversion H2; subst.
    exists [copp a]. split; [reflexivity|]. cbn [coefficients_of map add_coefficients].
    constructor; [|constructor; [|constructor]].
    + rewrite rp_opp. replace (times (minus_cR (0, 0) (minus_cR (0, 0) (real_point a))) (1, 0)) with (real_point a) by cring.
      match goal with |- apart ?u ?v <= _ => replace v with u by cring end. rewrite apart_refl. lra.
    + match type of X2 with apart ?u ?v <= _ => match goal with |- apart u ?w <= _ => replace w with v by cring end end. lra.
  - exists [zd; zd]. split; [|apply (close_weaken (4 * 3 * dd)); [lra|exact HC]].
    apply Assoc_Perturb.F2_len in HC. destruct p as [|? [|? [|? [|? ?]]]]; try discriminate. reflexivity.
  - exists demo_qzeros. split; [|apply (close_weaken (9 * 3 ^ 2 * dd)); [lra|exact HC]].
    apply Assoc_Perturb.F2_len in HC. destruct p as [|? [|? [|? [|? [|? ?]]]]]; try discriminate. reflexivity.
Qed.

Lemma zd_val : qpoint zd = (1 / 3, 1 / 3). Proof. unfold qpoint, zd, re, im, Q2R. cbn. f_equal; lra. Qed.
Lemma zs_val : qpoint zs1 = (5 / 3, 4 / 3). Proof. unfold qpoint, zs1, re, im, Q2R. cbn. f_equal; lra. Qed.
Lemma zd_zs : apart (qpoint zd) (qpoint zs1) = 5 / 3.
Proof.
  rewrite zd_val, zs_val. unfold apart, dist_euc. cbn [fst snd].
  replace (Rsqr (1 / 3 - 5 / 3) + Rsqr (1 / 3 - 4 / 3)) with (Rsqr (5 / 3)) by (unfold Rsqr; field). apply sqrt_Rsqr. lra.
Qed.
Lemma modulus_three z : In z [qpoint zd; qpoint zd; qpoint zs1] -> apart z (0, 0) <= 3.
Proof.
  intro H. fold (md z). eapply Rle_trans; [apply md_sum|].
  destruct H as [<-|[<-|[<-|[]]]]; rewrite ?zd_val, ?zs_val; cbn [fst snd]; rewrite !Rabs_pos_eq; lra.
Qed.

Lemma demo_solvable r : solvable 3 dd (81 * dd) (1 / 25) demo_solver demo_zeros (1, 1)%Z r.
Proof.
  assert (D0 : 0 < dd) by (unfold dd; lra).
  assert (T : Q2R (pow10 (- (1))) = 1 / 10) by (vm_compute (pow10 _); unfold Q2R; cbn [Qnum Qden]; lra).
  split.
  - lra.
  - cbn [fst snd]. rewrite T. lra.
  - apply demo_stable.
  - intros q Hq Hn. unfold count in *.
    assert (Two : forall z z', In z [qpoint zd; qpoint zd; qpoint zs1] -> In z' [qpoint zd; qpoint zd; qpoint zs1] -> z <> z' -> 6 * (1 / 25) < apart z z').
    { intros z z' H H' N. pose proof zd_zs as Z.
      destruct H as [<-|[<-|[<-|[]]]], H' as [<-|[<-|[<-|[]]]]; try congruence; rewrite ?(apart_sym (qpoint zs1)), Z; lra. }
    destruct (demo_subsets q) as [E|[E|[E|E]]]; rewrite E in *; cbn [List.length coefficient_error] in *; [lia| | |].
    + left. exists (qpoint zs1). split; [reflexivity|]. unfold dd. lra.
    + right. split; [intros z H; apply modulus_three; cbn [In] in *; tauto|]. exists (1 / 25). split; [lra|].
      split; [unfold dd; cbn [List.length pow]; lra|]. split; [intros; apply Two; cbn [In] in *; tauto|]. left. lra.
    + right. split; [exact modulus_three|]. exists (1 / 25). split; [lra|].
      split; [unfold dd; cbn [List.length pow]; lra|]. split; [exact Two|]. left. lra.
Qed.

Definition assoc_x : rctx := serial_context demo_f (Some demo_f) (0, 0)%Z (2, 0)%Q (0, 2)%Q None.

Lemma demo_separated : separated 2 (1, 1)%Z demo_zeros.
Proof.
  intros z z' H H' A B. cbn [fst snd] in A, B.
  assert (T : Q2R (pow10 (- (1))) = 1 / 10) by (vm_compute (pow10 _); unfold Q2R; cbn [Qnum Qden]; lra).
  rewrite T in A, B.
  assert (X : forall w, In w demo_zeros -> w = qpoint zd \/ w = qpoint zs1) by (intros w [<-|[<-|[<-|[]]]]; auto).
  destruct (X z H) as [-> | ->], (X z' H') as [-> | ->]; try reflexivity; exfalso; rewrite zd_val, zs_val in A; cbn [fst] in A;
    unfold Rabs in A; destruct (Rcase_abs _) in A; lra.
Qed.

Lemma assoc_search depth s iter : (12 < depth)%nat -> iteration_order iter ->
  let P := (1, 1)%Z in
  let out := calculateRoots demo_f (Some demo_f) (0, 0)%Z (argument_algorithm (moment_env P) PolyV depth (fun _ => true) s)
    (2, 0)%Q (0, 2)%Q None (rc_init None (3, 3)%Z) in
  snd out = Ok tt /\
  (exists c, In (c, 2%Z) (reported_pairs iter (fst out)) /\ within 1 P c (qpoint zd)) /\
  (exists c, In (c, 1%Z) (reported_pairs iter (fst out)) /\ within 1 P c (qpoint zs1)).
Proof.
  intros Hd HI P out.
  destruct (C76_complete_lemma (moment_env P) 3 dd (81 * dd) (1 / 25) demo_zeros depth demo_f demo_f (0, 0)%Z (2, 0)%Q (0, 2)%Q None
    None (3, 3)%Z iter HI (fun _ => true) s 6%nat 6%nat) as (A & _ & _ & B).
  - apply moment_reliable. exact demo_x_decimal.
  - split; [apply moment_within|apply demo_solvable].
  - vm_compute. reflexivity.
  - vm_compute. reflexivity.
  - lia.
  - fold P in A, B. fold out in A, B. split; [exact A|].
    destruct (B demo_separated) as (B1 & B2 & B3 & B4). change (search_precision (0, 0)%Z None) with P in *.
    assert (R : forall z, In z [qpoint zd; qpoint zs1] -> requested (2, 0)%Q (0, 2)%Q z).
    { intros z [<-|[<-|[]]]; rewrite ?zd_val, ?zs_val; unfold requested; cbn [fst snd];
        change (Qmin 2 0) with 0%Q; change (Qmax 2 0) with 2%Q; change (Qmin 0 2) with 0%Q; change (Qmax 0 2) with 2%Q; unfold Q2R; cbn; lra. }
    assert (N : qpoint zd <> qpoint zs1) by (rewrite zd_val, zs_val; intro C; injection C; lra).
    split.
    + destruct (B4 (qpoint zd) ltac:(cbn; auto) (R _ (or_introl eq_refl))) as (c & k & F1 & F2 & F3 & _).
      exists c. split; [|exact F2]. rewrite (F3 Whole_Examples.point_dec) in F1.
      revert F1. unfold demo_zeros. cbn [demo_qzeros map count_occ]. fold zd zs1.
      destruct (Whole_Examples.point_dec (qpoint zd) (qpoint zd)); [|congruence].
      destruct (Whole_Examples.point_dec (qpoint zs1) (qpoint zd)); [congruence|]. exact (fun H => H).
    + destruct (B4 (qpoint zs1) ltac:(cbn; auto) (R _ (or_intror (or_introl eq_refl)))) as (c & k & F1 & F2 & F3 & _).
      exists c. split; [|exact F2]. rewrite (F3 Whole_Examples.point_dec) in F1.
      revert F1. unfold demo_zeros. cbn [demo_qzeros map count_occ]. fold zd zs1.
      destruct (Whole_Examples.point_dec (qpoint zd) (qpoint zs1)); [congruence|].
      destruct (Whole_Examples.point_dec (qpoint zs1) (qpoint zs1)); [|congruence]. exact (fun H => H).
Qed.

(** ** The quadrature estimator, one zero at (1 + i) / 30 *)
Definition one30 : list point := [(1 / 30, 1 / 30)].
Notation one_f := (fun p => times (1, 0) (product_of one30 p)).
Notation one_df := (fun p => times (1, 0) (derivative_of one30 p)).
Definition linear_solver (p : list cplx) : res (list cplx) := match p with [a; _] => Ok [copp a] | _ => Err ValueError end.
Definition small_df : rctx := serial_context demo_f (Some demo_f) (0, 0)%Z (0, 1 # 10)%Q (0, 1 # 10)%Q None.

Lemma one_inside : well_inside (1 / 6) one30 (1, 1)%Z (rect_of small_df).
Proof.
  intros q Hq. destruct (pair_inside q Hq) as (D & D1 & D2 & D3). exists D. split; [exact D1|]. split; [exact D2|].
  intros w [<-|[]]. apply D3. left. reflexivity.
Qed.

Definition e30 : R := INR 1 * 1 ^ 3 * (1 / (1 / 6) ^ 3 + 9 * (4 / 5) ^ 3) / 4 ^ 10.
Lemma e30_small : 0 < e30 < 1 / 2000.
Proof. unfold e30. cbn [INR]. split; lra. Qed.

Lemma one_resolved : quad_moments_resolved e30 one_f one_df one30 (1, 1)%Z (rect_of small_df).
Proof.
  apply (C76_polynomial_lemma (1, 0) one30 (1, 1)%Z (rect_of small_df) (1 / 6) 1 (4 / 5)).
  - intro H. injection H. lra.
  - reflexivity.
  - reflexivity.
  - lra.
  - exact one_inside.
  - lra.
  - intros w [[<-|[]]|[H1 H2]].
    + cbn [fst snd]. rewrite !Rabs_pos_eq; lra.
    + vm_compute rect_of in H1, H2. unfold Q2R in H1, H2. cbn [x1 x2 y1 y2 Qnum Qden] in H1, H2.
      unfold Rabs. repeat destruct Rcase_abs; lra.
  - vm_compute rect_of. unfold Q2R. cbn [x1 x2 Qnum Qden]. lra.
  - vm_compute rect_of. unfold Q2R. cbn [y1 y2 Qnum Qden]. lra.
  - exact (proj2 e30_small).
Qed.

Definition d30 : R := 8 * (1 / 2000) + 2 * e30.
Lemma d30_small : 0 < d30 <= 1 / 200. Proof. pose proof e30_small. unfold d30. lra. Qed.
Lemma one_solvable r : solvable 1 d30 d30 (1 / 25) linear_solver one30 (1, 1)%Z r.
Proof.
  pose proof d30_small as D0. generalize dependent d30. intros d D0.
  assert (T : Q2R (pow10 (- (1))) = 1 / 10) by (vm_compute (pow10 _); unfold Q2R; cbn [Qnum Qden]; lra).
  split.
  - lra.
  - cbn [fst snd]. rewrite T. lra.
  - intros q p Hq Hn HC. unfold count in *. cbn [one30 filter] in *. destruct (zinb q (1 / 30, 1 / 30)); cbn [List.length coefficient_error] in *; [|lia].
    cbn [coefficients_of map add_coefficients] in HC.
    inversion HC as [|a c0' l1 l1' X1 H1 E1 E1']; subst. inversion H1 as [|b c1' l2 l2' X2 H2 E2 E2']; subst. inversion H2; subst.
    exists [copp a]. split; [reflexivity|]. cbn [coefficients_of map add_coefficients].
    constructor; [|constructor; [|constructor]].
    + rewrite rp_opp. match goal with |- apart ?u ?v <= _ => replace v with u by cring end. rewrite apart_refl. lra.
    + match type of X2 with apart ?u ?v <= _ => match goal with |- apart u ?w <= _ => replace w with v by cring end end. lra.
  - intros q Hq Hn. unfold count in *. cbn [one30 filter] in *. destruct (zinb q (1 / 30, 1 / 30)); cbn [List.length coefficient_error] in *; [|lia].
    left. exists (1 / 30, 1 / 30). split; [reflexivity|]. lra.
Qed.

Lemma one_search fuel depth debug s0 iter :
  (2 <= fuel)%nat -> (8 < depth)%nat -> iteration_order iter ->
  let E := quad_env odd_turns romberg (called one_f) (Some (called one_df)) (1, 1)%Z fuel debug
    (fun _ _ => Err RuntimeError) (fun _ => Err RuntimeError) linear_solver true false in
  let out := calculateRoots demo_f (Some demo_f) (0, 0)%Z (argument_algorithm E PolyV depth (fun _ => true) s0)
    (0, 1 # 10)%Q (0, 1 # 10)%Q None (rc_init None (3, 3)%Z) in
  snd out = Ok tt /\
  exists c, In (c, 1%Z) (reported_pairs iter (fst out)) /\ within 1 (1, 1)%Z c (1 / 30, 1 / 30).
Proof.
  intros Hf Hd HI E out.
  destruct (C76_quad_complete_lemma one_f one_df one30 odd_turns (1 / 2000) e30 1 d30 (1 / 25) (1, 1)%Z fuel debug
    (fun _ _ => Err RuntimeError) (fun _ => Err RuntimeError) linear_solver true false
    odd_converts ltac:(lra) Hf depth demo_f demo_f (0, 0)%Z (0, 1 # 10)%Q (0, 1 # 10)%Q None
    None (3, 3)%Z iter HI (fun _ => true) s0 4%nat 4%nat one_resolved (one_solvable _)) as (A & _ & _ & B).
  - vm_compute. reflexivity.
  - vm_compute. reflexivity.
  - lia.
  - fold E in A, B. fold out in A, B. split; [exact A|].
    destruct (B ltac:(intros z1 z2 [<-|[]] [<-|[]] _ _; reflexivity)) as (_ & _ & _ & F).
    change (search_precision (0, 0)%Z None) with (1, 1)%Z in *.
    destruct (F (1 / 30, 1 / 30) (or_introl eq_refl)) as (c & k & F1 & F2 & F3 & _).
    { unfold requested. cbn [fst snd]. change (Qmin 0 (1 # 10)) with 0%Q. change (Qmax 0 (1 # 10)) with (1 # 10)%Q.
      unfold Q2R. cbn. lra. }
    exists c. split; [|exact F2]. rewrite (F3 Whole_Examples.point_dec) in F1. revert F1. cbn [one30 count_occ].
    destruct (Whole_Examples.point_dec (1 / 30, 1 / 30) (1 / 30, 1 / 30)); [|congruence]. exact (fun H => H).
Qed.

(** ** A double zero and a second moment off by 8/100: exact roots of the associated polynomial are off by 2/10. *)
Definition twice : list cplx := [zd; zd].
Definition two_roots : list cplx := [(8 # 15, 1 # 3); (2 # 15, 1 # 3)]%Q.
Definition exact_solver_for (ws : list cplx) (p : list cplx) : res (list cplx) :=
  match p with
  | [a; b; c] => if Qeq_bool (re a) (-(1 # 25)) && Qeq_bool (im a) (2 # 9) && Qeq_bool (re b) (-(2 # 3)) && Qeq_bool (im b) (-(2 # 3))
      && Qeq_bool (re c) 1 && Qeq_bool (im c) 0 then Ok ws else Err ValueError
  | _ => Err ValueError
  end.
Definition rough_env (P : Z * Z) : env unit :=
  mkEnv (S := unit)
    (fun k r _ => (tt, [], Ok (if Z.eqb k 0 then (inject_Z (Z.of_nat (qcount twice r)), 0%Q)
       else cadd (if Z.eqb k 2 then (8 # 100, 0)%Q else c0) (qmoment twice (Z.to_nat k) r))))
    (fun _ _ s => s) (fun _ => false) (fun s => s)
    (fun _ _ => Err RuntimeError) (fun _ => Err RuntimeError) (exact_solver_for two_roots) true P true.

Lemma rough_reliable P r : decimal_rect r -> reliable (rough_env P) (map qpoint twice) P r.
Proof.
  intros Hr q s Hq. pose proof (cells_decimal P r q Hr Hq) as (A & B & C & D). split.
  - intros z Hz [Zx Zy]. apply in_map_iff in Hz. destruct Hz as (w & <- & Hw).
    assert (Hw' : In w demo_qzeros) by (destruct Hw as [<-|[<-|[]]]; cbn; auto).
    destruct (demo_thirds w Hw') as [T1 T2]. split; cbn [fst snd qpoint] in *; apply decimal_strict; assumption.
  - exists tt, [], (inject_Z (Z.of_nat (qcount twice q)), 0%Q).
    split; [reflexivity|]. split; [|intros c []]. rewrite count_qcount. unfold re. cbn [fst].
    setoid_replace (inject_Z (Z.of_nat (qcount twice q)) - inject_Z (Z.of_nat (qcount twice q)))%Q with 0%Q by ring. discriminate.
Qed.
Lemma rough_within P r : moments_within (1 / 10) (rough_env P) (map qpoint twice) P r.
Proof.
  intros q k s Hq Hc Hk. set (t := if Z.eqb (Z.of_nat k) 2 then (8 # 100, 0)%Q else c0).
  exists tt, [], (cadd t (qmoment twice k q)).
  split; [|split; [|intros c []]].
  - cbn [e_est rough_env]. destruct (Z.eqb_spec (Z.of_nat k) 0) as [C|_]; [lia|]. rewrite Nat2Z.id. reflexivity.
  - rewrite rp_add, rp_moment, apart_md. generalize (power_sum (map qpoint twice) k q). intro w.
    replace (minus_cR (plus_cR (real_point t) w) w) with (real_point t) by cring.
    eapply Rle_trans; [apply md_sum|]. unfold t. destruct (Z.eqb _ _); unfold real_point, c0, re, im, Q2R; cbn; rewrite !Rabs_pos_eq; lra.
Qed.
Lemma exact_solver_ok p ws : exact_solver_for two_roots p = Ok ws -> close 0 p (coefficients_of (map real_point ws)).
Proof.
  unfold exact_solver_for. destruct p as [|a [|b [|c [|? ?]]]]; try discriminate.
  destruct (_ && _) eqn:H; [|discriminate]. intro X. injection X as <-.
  rewrite !andb_true_iff in H. destruct H as (((((H1 & H2) & H3) & H4) & H5) & H6).
  apply Qeq_bool_eq in H1, H2, H3, H4, H5, H6. apply Qeq_eqR in H1, H2, H3, H4, H5, H6.
  assert (Z : forall (x y : cR), fst x = fst y -> snd x = snd y -> apart x y <= 0).
  { intros [x1' x2'] [y1' y2'] U V. cbn [fst snd] in U, V. subst. rewrite apart_refl. lra. }
  cbn [two_roots map coefficients_of add_coefficients].
  constructor; [|constructor; [|constructor; [|constructor]]]; apply Z; unfold real_point at 1; cbn [fst snd]; rewrite ?H1, ?H2, ?H3, ?H4, ?H5, ?H6;
    unfold Q2R, times, plus_cR, minus_cR, real_point, re, im; cbn; lra.
Qed.

Lemma C76_conditioning_refuted_lemma :
  exists (E : env unit) zeros depth f df dflt reRan imRan,
  let P := search_precision dflt None in
  let r := rect_of (serial_context f (Some df) dflt reRan imRan None) in
  let out := calculateRoots f (Some df) dflt (argument_algorithm E PolyV depth (fun _ => true) tt) reRan imRan None (rc_init None dflt) in
  reliable E zeros P r /\ moments_within (Q2R (pow10 (- fst P))) E zeros P r /\ fst P = snd P /\
  (forall p ws, e_polyroots E p = Ok ws -> close 0 p (coefficients_of (map real_point ws))) /\
  separated 2 P zeros /\ snd out = Ok tt /\
  exists c k, In (c, k) (reported_pairs (fun l => l) (fst out)) /\ forall z, In z zeros -> ~ within 1 P c z.
Proof.
  exists (rough_env (1, 1)%Z), (map qpoint twice), 1%nat, demo_f, demo_f, (0, 0)%Z, (2, 0)%Q, (0, 2)%Q. cbv zeta.
  change (search_precision (0, 0)%Z None) with (1, 1)%Z.
  assert (T : Q2R (pow10 (- (1))) = 1 / 10) by (vm_compute (pow10 _); unfold Q2R; cbn [Qnum Qden]; lra).
  split; [apply rough_reliable; exact demo_x_decimal|].
  split; [cbn [fst]; rewrite T; apply rough_within|]. split; [reflexivity|].
  split; [exact exact_solver_ok|].
  split; [intros z z' [<-|[<-|[]]] [<-|[<-|[]]] _ _; reflexivity|].
  split; [vm_compute; reflexivity|].
  exists (1 # 2, 3 # 10)%Q, 1%Z. split; [vm_compute; auto|].
  intros z [<-|[<-|[]]] [H _]; rewrite zd_val in H; cbn [fst snd] in H; rewrite T in H; unfold re, Q2R in H; cbn in H;
    unfold Rabs in H; destruct Rcase_abs in H; lra.
Qed.
