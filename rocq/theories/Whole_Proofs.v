(** Whole searches with the summation estimator. *)
From Coq Require Import Reals Qreals Qminmax.
From Verif Require Import PyBase Rounding_Model Rounding_Proofs Poly_Model Container_Model Container_Spec Finder_Model Finder_Spec
  Refine_Model Refine_Spec Zeros_Spec Zeros_Proofs Cache_Model Cache_Spec Cache_Proofs
  Sum_Model Sum_Spec Sum_Proofs Sum_Proofs2 Sum_Proofs3 Sum_Proofs4 Sum_Proofs5 Sum_Proofs6 Arg_Spec EndToEnd_Model EndToEnd_Spec EndToEnd_Proofs EndToEnd_Proofs2 EndToEnd_Proofs3
  Whole_Model Whole_Grid Whole_Entry Whole_Inv Whole_Search Whole_Spec.
From Coq Require Import Lqa Lra.
Open Scope R_scope.

(** ** Heights *)
Lemma height_bound P R0 (wide0 : (x1 R0 < x2 R0 /\ y1 R0 < y2 R0)%Q) p : vpath R0 P p ->
  (ht P R0 (List.length p) == y2 R0 - y1 R0 \/ pow10 (- snd P) / 2 <= ht P R0 (List.length p))%Q.
Proof.
  induction p as [|b p IH]; intro H.
  - left. unfold ht. cbn. reflexivity.
  - destruct H as [H1 H2]. cbn [List.length]. rewrite ht_S. destruct (dir P R0 (List.length p)) eqn:D; [exact (IH H1)|].
    right. unfold dir in D. apply Qltb_false in D.
    destruct (cell_dims P R0 p) as [C1 C2].
    pose proof (pow10_pos (- fst P)) as P1. pose proof (pow10_pos (- snd P)) as P2.
    apply Qmult_le_r; [reflexivity|].
    destruct (Qlt_le_dec (ht P R0 (List.length p)) (pow10 (- snd P))) as [C|C]; [|exact C]. exfalso.
    apply H2. split; [|rewrite C2; exact C].
    rewrite C1. destruct (Qlt_le_dec (wd P R0 (List.length p)) (pow10 (- fst P))) as [X|X]; [exact X|]. exfalso.
    assert (A : (1 <= wd P R0 (List.length p) / pow10 (- fst P))%Q) by (apply Qle_shift_div_l; [exact P1|Lqa.lra]).
    assert (B : (ht P R0 (List.length p) / pow10 (- snd P) < 1)%Q) by (apply Qlt_shift_div_r; [exact P2|Lqa.lra]).
    Lqa.lra.
Qed.

Lemma dense_loose n P R0 : (x1 R0 < x2 R0 /\ y1 R0 < y2 R0)%Q -> (2 <= n)%nat -> dense n P R0 -> ~ tight R0 n P.
Proof.
  intros W Hn HD (p & V & G). unfold gap in G. unfold dense in HD.
  assert (N1 : (1 <= inject_Z (Z.of_nat (n - 1)))%Q).
  { change 1%Q with (inject_Z 1). rewrite <- Zle_Qle. lia. }
  set (N := inject_Z (Z.of_nat (n - 1))) in *. clearbody N.
  apply Qlt_not_le in G. apply G.
  apply Qle_shift_div_r; [Lqa.lra|].
  destruct (height_bound P R0 W p V) as [X|X].
  - rewrite X. destruct W. Lqa.nra.
  - set (h := ht P R0 (List.length p)) in *. set (t := pow10 (- snd P)) in *.
    assert (X' : (t <= 2 * h)%Q).
    { apply (Qmult_le_r _ _ 2) in X; [|reflexivity]. setoid_replace (t / 2 * 2)%Q with t in X by field. Lqa.lra. }
    Lqa.nra.
Qed.

(** ** The start *)
Lemma level_free_cong st h l l' : (l == l')%Q -> level_free st h l -> level_free st h l'.
Proof.
  intro E. unfold level_free. intro H. rewrite (dget_cong okey_eqb okey_t okey_s (l', 0%Z) (l, 0%Z)); [exact H|].
  unfold okey_eqb. cbn. rewrite andb_true_r. apply Qeq_bool_iff. symmetry. exact E.
Qed.
Lemma free_cached st h l t s : level_free st h l -> cached (line_cache h st) l 0 t s = None.
Proof. unfold level_free, cached, line_cache. intro H. destruct h; rewrite H; reflexivity. Qed.

Lemma start_inv f zeros R0 theta eta n eps P (old : bool -> Q -> Q -> side -> entry R -> Prop) c st :
  (forall a b, ec_lookup 0 a b c = None) ->
  (forall h l t s v, grid_level R0 P h l -> cached (line_cache h st) l 0 t s = Some v -> old h l t s v) ->
  inv f zeros R0 theta eta n eps P old (fun _ _ => False) (fun _ => False) c st.
Proof.
  intros HC HU. split; try (intros; contradiction).
  - intros k v H. rewrite HC in H. discriminate H.
  - intros k v H. rewrite HC in H. discriminate H.
  - intros h l t s v G H. right. exact (HU h l t s v G H).
Qed.

Lemma untouched_none st P R0 : untouched st P R0 ->
  forall h l t s v, grid_level R0 P h l -> cached (line_cache h st) l 0 t s = Some v -> False.
Proof.
  intros HU h l t s v (p & i & Vp & Hi & Hl) H.
  assert (F : level_free st h l).
  { apply (level_free_cong st h _ l Hl). destruct (HU _ (vpath_cell R0 P p Vp)) as (U1 & U2 & U3 & U4).
    subst h. destruct i; assumption. }
  rewrite (free_cached st h l t s F) in H. discriminate H.
Qed.

Lemma start_cache (c : ecache) a b : ec_lookup 0 a b (if ec_dirty c then ec_reset c else c) = None.
Proof.
  destruct (ec_dirty c) eqn:D; [apply lookup_reset|]. destruct c as [m h i]. unfold ec_dirty in D. cbn in D.
  destruct m; [reflexivity|discriminate].
Qed.

Lemma fresh_untouched P r : untouched fresh_sum P r.
Proof. intros q _. repeat split. Qed.

Lemma sampled_avoids n eta L zeros q : well_sampled n eta L zeros q -> avoids zeros q.
Proof.
  intros (d & Hd & HW & _) z Hz Hin.
  destruct (Classical_Prop.classic (zstrict q z)) as [H|H]; [exact H|]. exfalso.
  pose proof (HW z Hz z (conj Hin H)) as X. unfold dist_euc in X.
  replace (Rsqr (fst z - fst z) + Rsqr (snd z - snd z)) with 0 in X by (unfold Rsqr; ring).
  rewrite sqrt_0 in X. lra.
Qed.

Lemma close_accurate zeros q m e : Rabs (Q2R (re m) - INR (count zeros q)) <= e -> e <= 1 / 5 ->
  accurate zeros q [] (Ok m) = true.
Proof.
  intros H He. cbn [accurate]. apply Qle_bool_iff. apply Rle_Qle.
  rewrite INR_IZR_INZ in H.
  assert (E : Q2R (re m) - IZR (Z.of_nat (count zeros q)) = Q2R (re m - inject_Z (Z.of_nat (count zeros q)))).
  { rewrite Q2R_minus. f_equal. unfold Q2R, inject_Z. cbn. lra. }
  rewrite E in H. replace (Q2R (1 # 5)) with (1 / 5) by (unfold Q2R; cbn; lra).
  set (d := (re m - inject_Z (Z.of_nat (count zeros q)))%Q) in *.
  destruct (Qlt_le_dec d 0) as [N|N].
  - rewrite (Qeq_eqR _ _ (Qabs_neg d (Qlt_le_weak _ _ N))). rewrite Q2R_opp.
    unfold Rabs in H. destruct (Rcase_abs (Q2R d)); lra.
  - rewrite (Qeq_eqR _ _ (Qabs_pos d N)). unfold Rabs in H. destruct (Rcase_abs (Q2R d)); lra.
Qed.

(** ** One run of the algorithm, from a state whose entries [old] do not harm *)
Section RunOld.
  Variables (g : cplx -> cR) (zeros : list point) (turns : R -> Q) (eps delta : R) (mp : Q) (n : nat)
    (eprec : Z * Z) (fuel : nat) (debug : bool) (secant : cplx -> cplx -> res cplx) (newton : cplx -> res cplx)
    (polyroots : list cplx -> res (list cplx)) (has_df progress : bool).
  Notation E := (sum_env turns g delta mp n eprec fuel debug secant newton polyroots has_df progress).
  Hypothesis delta_pos : 0 < delta.
  Hypothesis n_big : (2 <= n)%nat.
  Hypothesis fuel_big : (100 * n + 3 <= fuel)%nat.
  Hypothesis turns_ok : faithful turns eps.
  Variable x : rctx.
  Notation R0 := (rect_of x).
  Notation P := (cx_precision x).
  Hypothesis wide0 : (x1 R0 < x2 R0 /\ y1 R0 < y2 R0)%Q.
  Variables (L eta : R) (rho theta : cplx -> R).
  Hypothesis F1 : forall z z', ceq z z' -> g z = g z'.
  Hypothesis F2 : 0 <= L.
  Hypothesis F3 : forall z, in_rect R0 z -> 0 < rho z /\
       g z = cmulR (zero_product zeros z) (rho z * cos (theta z), rho z * sin (theta z)).
  Hypothesis F4 : forall z z', in_rect R0 z -> in_rect R0 z' ->
       Rabs (theta z' - theta z) <= L * (Rabs (Q2R (re z' - re z)) + Rabs (Q2R (im z' - im z))).
  Hypothesis HW : forall q, cell_of P R0 q -> well_sampled n eta L zeros q.
  Hypothesis HB : 4 * eta / PI + 4 * eps <= 1 / 5.
  Variable old : bool -> Q -> Q -> side -> entry R -> Prop.
  Hypothesis old_start : forall p i l t v, vpath R0 P p -> old (ehor i) l t StartSide v ->
    (l == elevel (cell P R0 p) i)%Q -> (t == elo (cell P R0 p) i)%Q ->
    exists b, (ehi (cell P R0 p) i <= b)%Q /\
      valid g zeros R0 theta eta (gap R0 n (ehor i)) (ehor i) (elevel (cell P R0 p) i) (elo (cell P R0 p) i) b v.
  Hypothesis old_end : forall p i l t v, vpath R0 P p -> old (ehor i) l t EndSide v ->
    (l == elevel (cell P R0 p) i)%Q -> (t == ehi (cell P R0 p) i)%Q ->
    exists a, (a <= elo (cell P R0 p) i)%Q /\
      valid g zeros R0 theta eta (gap R0 n (ehor i)) (ehor i) (elevel (cell P R0 p) i) a (ehi (cell P R0 p) i) v.
  Variable s0 : ecache * sum_state R.
  Hypothesis s0_old : forall h l t s v, grid_level R0 P h l -> cached (line_cache h (snd s0)) l 0 t s = Some v -> old h l t s v.

  Lemma bound_eta : 0 <= eps /\ eta < PI.
  Proof.
    destruct turns_ok as [T1 T2]. pose proof PI_RGT_0 as PI0.
    assert (EP : 0 <= eps) by (eapply Rle_trans; [apply Rabs_pos|exact (T1 0)]).
    split; [exact EP|].
    destruct (Rlt_le_dec eta PI) as [H|H]; [exact H|]. exfalso.
    assert (4 * 1 <= 4 * eta / PI).
    { unfold Rdiv. rewrite Rmult_assoc. apply Rmult_le_compat_l; [lra|].
      apply (Rmult_le_reg_r PI); [exact PI0|]. rewrite Rmult_assoc, Rinv_l by lra. lra. }
    lra.
  Qed.

  Lemma calc_agree v depth : v <> PolyV ->
    (exists s' l, calcRoots (env_for E x) v depth R0 s0 = (s', l, Raised IndexError) /\ tight R0 n P) \/
    calcRoots (env_for E x) v depth R0 s0 = calcRoots (repaired zeros (env_for E x)) v depth R0 s0.
  Proof.
    intro HV. destruct turns_ok as [T1 T2]. destruct bound_eta as [EP ES].
    set (iv := fun D F (s : ecache * sum_state R) =>
      inv g zeros R0 theta eta n eps P old D F (fst s) (snd s)).
    apply (search_agree zeros P R0 (env_for E x) (tight R0 n P) v HV eq_refl iv) with (fuel := depth) (s0 := s0).
    - intros D F [c st] p HI HR. cbn [e_est env_for sum_env cached_env].
      destruct (moment_cell g zeros L R0 rho theta F1 F2 F3 F4 eta ES delta mp n eprec fuel delta_pos n_big fuel_big
        turns eps T1 T2 P wide0 HW old old_start old_end debug D F c st p HI HR) as [(c' & st' & m & A & B & C)|(s' & A & B)].
      + left. exists (c', st'), m. split; [exact A|]. split; [|exact B].
        apply (close_accurate zeros _ m _ C). unfold ee. lra.
      + right. exists s'. auto.
    - intros D F [c st] q j HI. exact (inv_remove _ _ _ _ _ _ _ _ _ D F c st q j HI).
    - destruct s0 as [c st]. cbn [e_dirty e_reset env_for sum_env cached_env fst snd] in *. unfold iv.
      pose proof (start_cache c) as SC. destruct (ec_dirty c); cbn [fst snd]; apply start_inv; assumption.
  Qed.
End RunOld.

(** ** One run of the algorithm *)
Section Run.
  Variables (g : cplx -> cR) (zeros : list point) (turns : R -> Q) (eps delta : R) (mp : Q) (n : nat)
    (eprec : Z * Z) (fuel : nat) (debug : bool) (secant : cplx -> cplx -> res cplx) (newton : cplx -> res cplx)
    (polyroots : list cplx -> res (list cplx)) (has_df progress : bool).
  Notation E := (sum_env turns g delta mp n eprec fuel debug secant newton polyroots has_df progress).
  Hypothesis delta_pos : 0 < delta.
  Hypothesis n_big : (2 <= n)%nat.
  Hypothesis fuel_big : (100 * n + 3 <= fuel)%nat.
  Hypothesis turns_ok : faithful turns eps.

  Variable x : rctx.
  Hypothesis wide0 : (x1 (rect_of x) < x2 (rect_of x) /\ y1 (rect_of x) < y2 (rect_of x))%Q.
  Hypothesis res_ok : resolved g zeros n eps (cx_precision x) (rect_of x).

  Lemma eps_nonneg : 0 <= eps.
  Proof. destruct turns_ok as [A _]. eapply Rle_trans; [apply Rabs_pos|exact (A 0)]. Qed.

  Lemma run_reliable : reliable (repaired zeros E) zeros (cx_precision x) (rect_of x).
  Proof.
    destruct res_ok as (L & eta & HF & HW & _). apply repaired_reliable.
    intros q Hq. exact (sampled_avoids n eta L zeros q (HW q Hq)).
  Qed.

  Variable s0 : ecache * sum_state R.
  Hypothesis clear0 : untouched (snd s0) (cx_precision x) (rect_of x).

  Lemma run_agree v depth info : v <> PolyV ->
    (ar_end (argument_algorithm E v depth info s0 x) = Some IndexError /\ tight (rect_of x) n (cx_precision x)) \/
    argument_algorithm E v depth info s0 x =
    argument_algorithm (repaired zeros E) v depth info s0 x.
  Proof.
    intro HV. destruct res_ok as (L & eta & (F1 & F2 & rho & theta & F3 & F4) & HW & HB).
    destruct (calc_agree g zeros turns eps delta mp n eprec fuel debug secant newton polyroots has_df progress
      delta_pos n_big fuel_big turns_ok x wide0 L eta rho theta F1 F2 F3 F4 HW HB (fun _ _ _ _ _ => False)
      ltac:(intros; contradiction) ltac:(intros; contradiction) s0 (untouched_none _ _ _ clear0) v depth HV) as [(s' & l & H1 & H2)|H].
    - left. unfold argument_algorithm. rewrite H1. split; [reflexivity|exact H2].
    - right. unfold argument_algorithm. rewrite repaired_env_for. rewrite H. reflexivity.
  Qed.

  Lemma run_dense v depth info : v <> PolyV -> dense n (cx_precision x) (rect_of x) ->
    argument_algorithm E v depth info s0 x =
    argument_algorithm (repaired zeros E) v depth info s0 x.
  Proof.
    intros HV HD. destruct (run_agree v depth info HV) as [[_ H]|H]; [|exact H].
    exfalso. exact (dense_loose n _ _ wide0 n_big HD H).
  Qed.
End Run.

Section Whole.
  Variables (g : cplx -> cR) (zeros : list point) (turns : R -> Q) (eps delta : R) (mp : Q) (n : nat)
    (eprec : Z * Z) (fuel : nat) (debug : bool) (secant : cplx -> cplx -> res cplx) (newton : cplx -> res cplx)
    (polyroots : list cplx -> res (list cplx)) (has_df progress : bool).
  Notation E := (sum_env turns g delta mp n eprec fuel debug secant newton polyroots has_df progress).
  Hypothesis delta_pos : 0 < delta.
  Hypothesis n_big : (2 <= n)%nat.
  Hypothesis fuel_big : (100 * n + 3 <= fuel)%nat.
  Hypothesis turns_ok : faithful turns eps.
  Variable s0 : ecache * sum_state R.

  Lemma serial_lemma depth info f df dflt reRan imRan prec p sp iter :
    let P := search_precision dflt prec in
    let r := rect_of (serial_context f df dflt reRan imRan prec) in
    let out := calculateRoots f df dflt (argument_algorithm E Simple depth info s0) reRan imRan prec (rc_init p sp) in
    iteration_order iter -> untouched (snd s0) P r -> resolved g zeros n eps P r ->
    snd out = Err RecursionError \/ (snd out = Err IndexError /\ ~ dense n P r) \/
    (snd out = Ok tt /\
     let pairs := reported_pairs iter (fst out) in
     all_found 1 P zeros reRan imRan pairs /\
     all_genuine 1 P P zeros reRan imRan pairs /\
     (separated 1 P zeros -> orders_right 1 P P zeros reRan imRan pairs) /\
     (separated 2 P zeros -> exactly_once 1 P zeros reRan imRan pairs)).
  Proof.
    intros P r out HI HU HR. set (x := serial_context f df dflt reRan imRan prec) in *.
    pose proof (rect_wide f df dflt reRan imRan prec : (x1 (rect_of x) < x2 (rect_of x) /\ y1 (rect_of x) < y2 (rect_of x))%Q) as W.
    destruct (run_agree g zeros turns eps delta mp n eprec fuel debug secant newton polyroots has_df progress
      delta_pos n_big fuel_big turns_ok x W HR s0 HU Simple depth info ltac:(discriminate)) as [[He HT]|He].
    - right. left. split; [|intro HD; exact (dense_loose n P r W n_big HD HT)].
      unfold out, calculateRoots. fold x. cbv zeta.
      set (run := argument_algorithm E Simple depth info s0 x) in *.
      pose proof (proj1 (fresh_feed (toFilterContext x) (ar_reports run) p sp iter ((0, 0)%Q, 0%Z) HI)) as H1.
      destruct (feed (toFilterContext x) (ar_reports run) (rc_init p sp)) as [c1 r1].
      cbn [snd] in H1. subst r1. rewrite He. reflexivity.
    - assert (Eo : out = calculateRoots f df dflt (argument_algorithm (repaired zeros E) Simple depth info s0)
                    reRan imRan prec (rc_init p sp)).
      { unfold out, calculateRoots. fold x. rewrite He. reflexivity. }
      rewrite Eo.
      destruct (C63_any_depth_lemma _ (repaired zeros E) zeros depth info s0 f df dflt reRan imRan prec p sp iter HI
        (run_reliable g zeros turns eps delta mp n eprec fuel debug secant newton polyroots has_df progress x HR)) as [H|H]; auto.
  Qed.

  Lemma complete_lemma depth info f df dflt reRan imRan prec p sp iter a b :
    let P := search_precision dflt prec in
    let r := rect_of (serial_context f df dflt reRan imRan prec) in
    let out := calculateRoots f df dflt (argument_algorithm E Simple depth info s0) reRan imRan prec (rc_init p sp) in
    iteration_order iter -> untouched (snd s0) P r -> resolved g zeros n eps P r -> dense n P r ->
    halvings (Qabs (fst reRan - snd reRan) + 3 * pow10 (- fst P)) (fst P) a ->
    halvings (Qabs (fst imRan - snd imRan) + 7 * pow10 (- snd P)) (snd P) b ->
    (a + b < depth)%nat ->
    snd out = Ok tt /\
    let pairs := reported_pairs iter (fst out) in
    all_found 1 P zeros reRan imRan pairs /\
    all_genuine 1 P P zeros reRan imRan pairs /\
    (separated 1 P zeros -> orders_right 1 P P zeros reRan imRan pairs) /\
    (separated 2 P zeros -> exactly_once 1 P zeros reRan imRan pairs).
  Proof.
    intros P r out HI HU HR HD Ha Hb Hd. set (x := serial_context f df dflt reRan imRan prec) in *.
    pose proof (rect_wide f df dflt reRan imRan prec : (x1 (rect_of x) < x2 (rect_of x) /\ y1 (rect_of x) < y2 (rect_of x))%Q) as W.
    assert (Eo : out = calculateRoots f df dflt (argument_algorithm (repaired zeros E) Simple depth info s0)
                    reRan imRan prec (rc_init p sp)).
    { unfold out, calculateRoots. fold x.
      rewrite (run_dense g zeros turns eps delta mp n eprec fuel debug secant newton polyroots has_df progress
        delta_pos n_big fuel_big turns_ok x W HR s0 HU Simple depth info ltac:(discriminate) HD). reflexivity. }
    rewrite Eo. apply (C63_serial_lemma (repaired zeros E) zeros depth info s0 f df dflt reRan imRan prec p sp iter a b HI Ha Hb Hd).
    exact (run_reliable g zeros turns eps delta mp n eprec fuel debug secant newton polyroots has_df progress x HR).
  Qed.
End Whole.

Lemma C70_serial_lemma g zeros turns eps delta mp n eprec fuel debug secant newton polyroots has_df progress
  (H1 : 0 < delta) (H2 : (2 <= n)%nat) (H3 : (100 * n + 3 <= fuel)%nat) (H4 : faithful turns eps)
  depth info f df dflt reRan imRan prec p sp iter :
  let E := sum_env turns g delta mp n eprec fuel debug secant newton polyroots has_df progress in
  let P := search_precision dflt prec in
  let r := rect_of (serial_context f df dflt reRan imRan prec) in
  let out := calculateRoots f df dflt (argument_algorithm E Simple depth info new_estimator) reRan imRan prec (rc_init p sp) in
  iteration_order iter -> resolved g zeros n eps P r ->
  snd out = Err RecursionError \/ (snd out = Err IndexError /\ ~ dense n P r) \/
  (snd out = Ok tt /\
   let pairs := reported_pairs iter (fst out) in
   all_found 1 P zeros reRan imRan pairs /\
   all_genuine 1 P P zeros reRan imRan pairs /\
   (separated 1 P zeros -> orders_right 1 P P zeros reRan imRan pairs) /\
   (separated 2 P zeros -> exactly_once 1 P zeros reRan imRan pairs)).
Proof.
  intros E P r out HI HR.
  exact (serial_lemma g zeros turns eps delta mp n eprec fuel debug secant newton polyroots has_df progress H1 H2 H3 H4
    new_estimator depth info f df dflt reRan imRan prec p sp iter HI (fresh_untouched P r) HR).
Qed.

Lemma C70_complete_lemma g zeros turns eps delta mp n eprec fuel debug secant newton polyroots has_df progress
  (H1 : 0 < delta) (H2 : (2 <= n)%nat) (H3 : (100 * n + 3 <= fuel)%nat) (H4 : faithful turns eps)
  depth info f df dflt reRan imRan prec p sp iter a b :
  let E := sum_env turns g delta mp n eprec fuel debug secant newton polyroots has_df progress in
  let P := search_precision dflt prec in
  let r := rect_of (serial_context f df dflt reRan imRan prec) in
  let out := calculateRoots f df dflt (argument_algorithm E Simple depth info new_estimator) reRan imRan prec (rc_init p sp) in
  iteration_order iter -> resolved g zeros n eps P r -> dense n P r ->
  halvings (Qabs (fst reRan - snd reRan) + 3 * pow10 (- fst P)) (fst P) a ->
  halvings (Qabs (fst imRan - snd imRan) + 7 * pow10 (- snd P)) (snd P) b ->
  (a + b < depth)%nat ->
  snd out = Ok tt /\
  let pairs := reported_pairs iter (fst out) in
  all_found 1 P zeros reRan imRan pairs /\
  all_genuine 1 P P zeros reRan imRan pairs /\
  (separated 1 P zeros -> orders_right 1 P P zeros reRan imRan pairs) /\
  (separated 2 P zeros -> exactly_once 1 P zeros reRan imRan pairs).
Proof.
  intros E P r out HI HR.
  exact (complete_lemma g zeros turns eps delta mp n eprec fuel debug secant newton polyroots has_df progress H1 H2 H3 H4
    new_estimator depth info f df dflt reRan imRan prec p sp iter a b HI (fresh_untouched P r) HR).
Qed.
