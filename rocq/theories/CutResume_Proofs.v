(** A search that is interrupted, and the same search made again with the same finder. *)
From Coq Require Import Reals Qreals Qminmax.
From Verif Require Import PyBase Rounding_Model Rounding_Proofs Poly_Model Container_Model Container_Spec Finder_Model Finder_Spec
  Refine_Model Refine_Spec Refine_Proofs Zeros_Spec Zeros_Proofs Cache_Model Cache_Spec Cache_Proofs
  Sum_Model Sum_Spec Angle_Proofs Sum_Proofs Sum_Proofs2 Sum_Proofs3 Sum_Proofs4 Sum_Proofs5 Sum_Proofs6
  Arg_Spec Arg_Proofs Arg_Proofs2 Arg_Proofs3 Arg_Proofs4 Arg_Examples
  EndToEnd_Model EndToEnd_Spec EndToEnd_Examples Whole_Model Whole_Spec Whole_Entry Whole_Proofs Whole_Proofs3 Whole_Examples Whole_Stale
  CutSearch_Model.
From Coq Require Import Lqa Lra.
Open Scope R_scope.

(** ** The loop over the sides *)
Lemma loop_step {LS} (line : Z -> cplx -> cplx -> LS -> LS * list cplx * res cplx) debug a b es phi c st st1 v :
  ec_lookup 0 a b c = None -> line 0%Z a b st = (st1, [], Ok v) ->
  exists c1, (forall u w, ec_lookup 0 u w c1 =
      if same_key 0 0 u b w a then Some (copp v) else if same_key 0 0 u a w b then Some v else ec_lookup 0 u w c) /\
    moment_loop line debug 0 ((a, b) :: es) phi (c, st) = moment_loop line debug 0 es (cadd phi v) (c1, st1).
Proof.
  intros H1 H2. cbn [moment_loop fst snd]. unfold ec_retrieve. rewrite H1. cbn [truthy]. rewrite H2.
  exists (ec_store 0 b a (copp v) (ec_store 0 a b v (if debug then mkCache (ec_map c) (ec_hits c + 0) (ec_misses c + 1) else c))).
  split; [|match goal with |- match ?m with _ => _ end = _ => destruct m as [[s' zs'] r] end; reflexivity].
  intros u w. rewrite !lookup_store. destruct (same_key 0 0 u b w a); [reflexivity|].
  destruct (same_key 0 0 u a w b); [reflexivity|]. destruct debug; reflexivity.
Qed.
Lemma loop_fail {LS} (line : Z -> cplx -> cplx -> LS -> LS * list cplx * res cplx) debug a b es phi c st st1 e :
  ec_lookup 0 a b c = None -> line 0%Z a b st = (st1, [], Err e) ->
  exists c1, moment_loop line debug 0 ((a, b) :: es) phi (c, st) = ((c1, st1), [], Err e).
Proof.
  intros H1 H2. cbn [moment_loop fst snd]. unfold ec_retrieve. rewrite H1. cbn [truthy]. rewrite H2.
  eexists. reflexivity.
Qed.

(** Four sides of a rectangle, and then two of its left half. *)
Lemma root_then_left {LS} (line : Z -> cplx -> cplx -> LS -> LS * list cplx * res cplx) debug xa xc ya yc c
    st0 st1 st2 st3 st4 st5 st6 q1 q2 q3 q4 v e :
  let xm := ((xa + xc) / 2)%Q in
  (xa < xc)%Q -> (ya < yc)%Q -> (forall a b, ec_lookup 0 a b c = None) ->
  line 0%Z (xa, ya) (xc, ya) st0 = (st1, [], Ok (q1, 0%Q)) ->
  line 0%Z (xc, ya) (xc, yc) st1 = (st2, [], Ok (q2, 0%Q)) ->
  line 0%Z (xc, yc) (xa, yc) st2 = (st3, [], Ok (q3, 0%Q)) ->
  line 0%Z (xa, yc) (xa, ya) st3 = (st4, [], Ok (q4, 0%Q)) ->
  line 0%Z (xa, ya) (xm, ya) st4 = (st5, [], Ok v) ->
  line 0%Z (xm, ya) (xm, yc) st5 = (st6, [], Err e) ->
  exists c4 c5 m, cached_moment line debug 0 (mkRect xa xc ya yc) (c, st0) = ((c4, st4), [], Ok m) /\
    (re m == q1 + q2 + q3 + q4)%Q /\
    cached_moment line debug 0 (mkRect xa xm ya yc) (c4, st4) = ((c5, st6), [], Err e).
Proof.
  intros xm Hx Hy HC L1 L2 L3 L4 L5 L6.
  assert (M1 : (xa < xm)%Q) by (unfold xm; apply Qlt_shift_div_l; [reflexivity|Lqa.lra]).
  assert (M2 : (xm < xc)%Q) by (unfold xm; apply Qlt_shift_div_r; [reflexivity|Lqa.lra]).
  clearbody xm.
  assert (K : forall a b c d, same_key 0 0 a b c d = true -> ceq a b /\ ceq c d).
  { intros a b c0 d H. unfold same_key in H. cbn [Z.eqb andb] in H. apply andb_true_iff in H as [A B].
    split; apply ceqb_eq; assumption. }
  assert (N : forall a b c d (x y : option cplx), ~ (ceq a b /\ ceq c d) -> (if same_key 0 0 a b c d then x else y) = y).
  { intros a b c0 d x y H. destruct (same_key 0 0 a b c0 d) eqn:X; [exfalso; exact (H (K _ _ _ _ X))|reflexivity]. }
  assert (P : forall u w (x : option cplx) c', ec_lookup 0 u w c' = x -> x = None -> ec_lookup 0 u w c' = None) by (intros; congruence).
  unfold cached_moment, edges. cbn [x1 x2 y1 y2].
  destruct (loop_step line debug (xa, ya) (xc, ya) [((xc, ya), (xc, yc)); ((xc, yc), (xa, yc)); ((xa, yc), (xa, ya))] c0 c st0 st1 _ (HC _ _) L1) as (c1 & B1 & E1).
  Ltac fr N := repeat (rewrite N by (intros [[? ?] [? ?]]; cbn [fst snd re im] in *; Lqa.lra)).
  assert (H2 : ec_lookup 0 (xc, ya) (xc, yc) c1 = None) by (rewrite B1; fr N; apply HC).
  destruct (loop_step line debug (xc, ya) (xc, yc) [((xc, yc), (xa, yc)); ((xa, yc), (xa, ya))] (cadd c0 (q1, 0%Q)) c1 st1 st2 (q2, 0%Q) H2 L2) as (c2 & B2 & E2).
  assert (H3 : ec_lookup 0 (xc, yc) (xa, yc) c2 = None) by (rewrite B2; fr N; rewrite B1; fr N; apply HC).
  destruct (loop_step line debug (xc, yc) (xa, yc) [((xa, yc), (xa, ya))] (cadd (cadd c0 (q1, 0%Q)) (q2, 0%Q)) c2 st2 st3 (q3, 0%Q) H3 L3) as (c3 & B3 & E3).
  assert (H4 : ec_lookup 0 (xa, yc) (xa, ya) c3 = None) by (rewrite B3; fr N; rewrite B2; fr N; rewrite B1; fr N; apply HC).
  destruct (loop_step line debug (xa, yc) (xa, ya) [] (cadd (cadd (cadd c0 (q1, 0%Q)) (q2, 0%Q)) (q3, 0%Q)) c3 st3 st4 (q4, 0%Q) H4 L4) as (c4 & B4 & E4).
  assert (H5 : ec_lookup 0 (xa, ya) (xm, ya) c4 = None) by (rewrite B4; fr N; rewrite B3; fr N; rewrite B2; fr N; rewrite B1; fr N; apply HC).
  destruct (loop_step line debug (xa, ya) (xm, ya) [((xm, ya), (xm, yc)); ((xm, yc), (xa, yc)); ((xa, yc), (xa, ya))] c0 c4 st4 st5 v H5 L5) as (c5 & B5 & E5).
  assert (H6 : ec_lookup 0 (xm, ya) (xm, yc) c5 = None)
    by (rewrite B5; fr N; rewrite B4; fr N; rewrite B3; fr N; rewrite B2; fr N; rewrite B1; fr N; apply HC).
  destruct (loop_fail line debug (xm, ya) (xm, yc) [((xm, yc), (xa, yc)); ((xa, yc), (xa, ya))] (cadd c0 v) c5 st5 st6 e H6 L6) as (c6 & E6).
  exists c4, c6, (cadd (cadd (cadd (cadd c0 (q1, 0%Q)) (q2, 0%Q)) (q3, 0%Q)) (q4, 0%Q)).
  split; [exact (eq_trans E1 (eq_trans E2 (eq_trans E3 E4)))|]. split; [unfold cadd; cbn [re im fst snd c0]; Lqa.lra|].
  exact (eq_trans E5 E6).
Qed.

(** ** A line answered from the beginning of a longer one, and from then on too short *)
Section Entries.
  Variables (f : cplx -> cR) (zeros : list point) (D : rect) (theta : cplx -> R).
  Hypothesis f_proper : forall z z', ceq z z' -> f z = f z'.
  Variable eta : R.
  Hypothesis eta_small : eta < PI.
  Notation Th := (Theta zeros theta).
  Notation fine := (fine f zeros D theta eta).
  Variables (delta : R) (mp : Q) (n : nat) (prec : Z * Z) (fuel : nat).
  Hypothesis delta_pos : 0 < delta.
  Hypothesis n_big : (3 <= n)%nat.
  Hypothesis fuel_big : (100 * n + 3 <= fuel)%nat.
  Variable g : Q.
  Notation valid := (valid f zeros D theta eta g).

  (** It can be used for longer lines. *)
  Definition usable (h : bool) (b : Q) (v : entry R) : Prop :=
    (3 <= List.length (fst v))%nat /\ (List.length (snd v) <= List.length (fst v))%nat /\
    Forall (fun z => Qle_bool (coord_of h z) b = true) (fst v).

  Lemma increments_length {A} (q : cplx -> cplx -> A) l : List.length (increments q l) = pred (List.length l).
  Proof. induction l as [|a [|b l] IH]; [reflexivity|reflexivity|]. cbn [increments List.length] in *. rewrite IH. reflexivity. Qed.

  Lemma valid_lengths h l a b v : valid h l a b v -> (List.length (snd v) <= List.length (fst v))%nat.
  Proof.
    intros (pre & zl & ext & E1 & E2 & _ & _ & _ & _ & _ & HE). rewrite E1, E2, increments_length, !app_length.
    destruct HE as [(-> & _)|(z' & -> & _)]; cbn; lia.
  Qed.
  Lemma valid_below h l a b v : valid h l a b v -> Forall (fun z => Qle_bool (coord_of h z) b = true) (fst v).
  Proof.
    intros (pre & zl & ext & E1 & _ & C & _ & _ & _ & HB & _). rewrite E1.
    assert (C' : chain (fun z z' => (coord_of h z < coord_of h z')%Q) (pre ++ [zl])).
    { apply (chain_prefix _ _ ext). rewrite <- app_assoc. cbn [app]. revert C. apply chain_weaken. intros z z' (_ & _ & Z & _). exact Z. }
    pose proof (rising h pre zl C') as X. revert X. apply Forall_impl. intros z Hz. apply Qle_bool_iff in Hz. apply Qle_bool_iff. Lqa.lra.
  Qed.
  Lemma count_prefix {A} (p : A -> bool) l m : last_index p l = Some m -> (count_where p l <= List.length (firstn (S m) l))%nat.
  Proof.
    intro H. destruct (last_index_split _ _ _ H) as (l1 & x & l2 & -> & <- & Hx & F). unfold count_where.
    assert (F2 : filter p l2 = []) by (clear - F; induction F as [|y l Hy _ IH]; [reflexivity|cbn; rewrite Hy; exact IH]).
    rewrite filter_app. cbn [filter]. rewrite Hx, F2, firstn_app, app_length. rewrite firstn_all2 by lia.
    replace (S (List.length l1) - List.length l1)%nat with 1%nat by lia. cbn [firstn]. rewrite app_length. cbn [List.length].
    assert (X : (List.length (filter p l1) <= List.length l1)%nat)
      by (clear; induction l1 as [|y l IH]; cbn; [lia|destruct (p y); cbn; lia]).
    lia.
  Qed.

  (** A new entry. *)
  Lemma new_entry h l a b : fine n h l a b -> ((b - a) / inject_Z (Z.of_nat (n - 1)) <= g)%Q ->
    exists zs phis, gen_phi f delta mp n prec fuel 0 (mkpoint h l a) (mkpoint h l b) = Gen zs phis [] /\
      valid h l a b (zs, phis) /\ usable h b (zs, phis) /\
      exists st', sum_line f delta mp n prec fuel 0 (mkpoint h l a) (mkpoint h l b) fresh_sum = (st', SumOk [] (Th h l b - Th h l a)) /\
        cached (line_cache h st') l 0 a StartSide = Some (zs, phis).
  Proof.
    intros HF Hg.
    destruct (fine_valid f zeros D theta f_proper eta g delta mp n prec fuel delta_pos ltac:(clear - n_big; lia) fuel_big h l a b HF Hg)
      as (zs & phis & G & V).
    destruct (fresh_entry f zeros D theta f_proper eta eta_small delta mp n prec fuel delta_pos n_big fuel_big h l a b fresh_sum HF)
      as (st' & v & A & (F1 & F2 & F3 & F4) & CA). { destruct h; reflexivity. }
    assert (A' := A). assert (CA' := CA).
    assert (W : v = (zs, phis)).
    { rewrite sum_line_as_retrieve in A by apply HF. rewrite retrieve_miss in A; [|apply HF|destruct h; reflexivity].
      unfold gen_phi in G. rewrite G in A. injection A as A _. subst st'.
      replace (line_cache h _) with (storeCache l 0 a b (zs, phis) (dset okey_eqb (l, 0%Z) [] (line_cache h fresh_sum))) in CA
        by (destruct h; reflexivity).
      rewrite cached_store in CA by (rewrite (dget_dset okey_eqb okey_t okey_s), okey_r; discriminate).
      rewrite okey_r in CA. unfold skey_eqb in CA. cbn [fst snd side_eqb] in CA. rewrite andb_false_r, Qeq_bool_refl in CA.
      cbn in CA. congruence. }
    subst v. exists zs, phis. split; [exact G|]. split; [exact V|]. split; [split; [exact F2|split; [exact F3|exact F4]]|].
    exists st'. split; [exact A'|exact CA'].
  Qed.

  Lemma cached_new0 l t1 b v (c : lcache R) : dget okey_eqb (l, 0%Z) c <> None -> cached (storeCache l 0 t1 b v c) l 0 t1 StartSide = Some v.
  Proof.
    intro H. rewrite cached_store by exact H. rewrite okey_r. unfold skey_eqb. cbn [fst snd side_eqb].
    rewrite andb_false_r, Qeq_bool_refl. reflexivity.
  Qed.

  (** The beginning of a longer line that is in the cache. *)
  Lemma cut_entry h l t1 b t2 v st : fine n h l t1 b -> ((b - t1) / inject_Z (Z.of_nat (n - 1)) <= g)%Q -> (b <= t2)%Q ->
    valid h l t1 t2 v -> cached (line_cache h st) l 0 t1 StartSide = Some v ->
    exists st' v', sum_line f delta mp n prec fuel 0 (mkpoint h l t1) (mkpoint h l b) st = (st', SumOk [] (Rsum (snd v'))) /\
      valid h l t1 b v' /\ usable h b v' /\ cached (line_cache h st') l 0 t1 StartSide = Some v'.
  Proof.
    intros HF Hg Hb V HC. assert (Ht : (t1 < b)%Q) by apply HF.
    rewrite sum_line_as_retrieve by exact Ht. unfold retrieveCached.
    assert (Qltb t1 b = true) as -> by (apply Qltb_true, Ht).
    assert (Qle_bool t1 b = true) as -> by (apply Qle_bool_iff; Lqa.lra).
    assert (HD : dget okey_eqb (l, 0%Z) (line_cache h st) <> None).
    { unfold cached in HC. destruct (dget okey_eqb (l, 0%Z) (line_cache h st)); discriminate. }
    assert (HC' := HC). unfold cached in HC. destruct (dget okey_eqb (l, 0%Z) (line_cache h st)) as [d|] eqn:ED; [|discriminate].
    rewrite HC. destruct (Nat.ltb (count_where (fun z => Qle_bool (coord_of h z) b) (fst v)) 3) eqn:EN.
    - destruct (new_entry h l t1 b HF Hg) as (zs & phis & G & V' & U & _). unfold gen_phi in G. rewrite G.
      eexists. exists (zs, phis). split; [reflexivity|]. split; [exact V'|]. split; [exact U|].
      replace (line_cache h _) with (storeCache l 0 t1 b (zs, phis) (line_cache h st)) by (destruct h; reflexivity).
      apply cached_new0. rewrite ED. discriminate.
    - apply Nat.ltb_ge in EN.
      destruct (last_index (fun z => Qle_bool (coord_of h z) b) (fst v)) as [m|] eqn:EM.
      2: { exfalso. unfold count_where in EN.
           assert (X : filter (fun z => Qle_bool (coord_of h z) b) (fst v) = []).
           { clear - EM. revert EM. generalize (fst v). intro zs. induction zs as [|z zs IH]; [reflexivity|]. cbn [last_index filter].
             destruct (last_index _ zs); [discriminate|]. destruct (Qle_bool (coord_of h z) b); [discriminate|exact IH]. }
           rewrite X in EN. cbn in EN. clear - EN. lia. }
      eexists. exists (firstn (S m) (fst v), firstn (S m) (snd v)). split; [reflexivity|].
      pose proof (slice_start f zeros D theta eta g h l t1 t2 b v m V Hb EM) as V'.
      split; [exact V'|]. split.
      + split; [|split; [exact (valid_lengths _ _ _ _ _ V')|exact (valid_below _ _ _ _ _ V')]].
        pose proof (count_prefix _ _ _ EM) as X. cbn [fst]. clear - X EN. lia.
      + replace (line_cache h _) with (storeCache l 0 t1 b (firstn (S m) (fst v), firstn (S m) (snd v)) (line_cache h st))
          by (destruct h; reflexivity).
        apply cached_new0. rewrite ED. discriminate.
  Qed.

  (** An entry that is too short answers a longer line. *)
  Lemma stale_any h l t1 b t2 v st : (t1 < t2)%Q -> (b <= t2)%Q -> usable h b v ->
    cached (line_cache h st) l 0 t1 StartSide = Some v ->
    exists st', sum_line f delta mp n prec fuel 0 (mkpoint h l t1) (mkpoint h l t2) st = (st', SumOk [] (Rsum (snd v))).
  Proof.
    intros Ht Hb (F2 & F3 & F4) HC. rewrite sum_line_as_retrieve by exact Ht. unfold retrieveCached.
    assert (Qltb t1 t2 = true) as -> by (apply Qltb_true, Ht).
    assert (Qle_bool t1 t2 = true) as -> by (apply Qle_bool_iff; Lqa.lra).
    unfold cached in HC. destruct (dget okey_eqb (l, 0%Z) (line_cache h st)) as [d|]; [|discriminate].
    rewrite HC.
    assert (AL : Forall (fun z => Qle_bool (coord_of h z) t2 = true) (fst v)).
    { revert F4. apply Forall_impl. intros z Hz. apply Qle_bool_iff in Hz. apply Qle_bool_iff. Lqa.lra. }
    assert (CW : count_where (fun z => Qle_bool (coord_of h z) t2) (fst v) = List.length (fst v)).
    { unfold count_where. f_equal. clear - AL. induction AL as [|z l H _ IH]; [reflexivity|]. cbn. rewrite H, IH. reflexivity. }
    rewrite CW. assert (Nat.ltb (List.length (fst v)) 3 = false) as -> by (apply Nat.ltb_ge; exact F2).
    destruct v as [[|z zs] phis]; cbn [fst snd] in *; [cbn in F2; exfalso; clear - F2; lia|].
    rewrite (last_all _ z zs AL). rewrite !firstn_all2 by (cbn in *; clear - F3; lia).
    unfold asum. eexists. reflexivity.
  Qed.
End Entries.

Lemma cut_zero f delta mp n prec fuel order a b st : cut_line 0 f delta mp n prec fuel order a b st = st.
Proof.
  unfold cut_line, cut_cache. destruct (sum_line f delta mp n prec fuel order a b st) as [st' [found p|e|]]; try reflexivity.
  destruct st, (Qeq_bool (im a) (im b)); reflexivity.
Qed.

(** ** The lines of the interrupted search and of the next one *)
Section Resume.
  Variables (f : cplx -> cR) (zeros : list point) (L : R) (rho theta : cplx -> R).
  Variables xa xc ya yc : Q.
  Hypothesis Hx : (xa < xc)%Q.
  Hypothesis Hy : (ya < yc)%Q.
  Notation xm := ((xa + xc) / 2)%Q.
  Notation r := (mkRect xa xc ya yc).
  Notation half := (mkRect xa xm ya yc).
  Hypothesis f_proper : forall z z', ceq z z' -> f z = f z'.
  Hypothesis L_pos : 0 <= L.
  Hypothesis f_eq : forall z, in_rect r z -> 0 < rho z /\
       f z = cmulR (zero_product zeros z) (rho z * cos (theta z), rho z * sin (theta z)).
  Hypothesis theta_lip : forall z z', in_rect r z -> in_rect r z' ->
       Rabs (theta z' - theta z) <= L * (Rabs (Q2R (re z' - re z)) + Rabs (Q2R (im z' - im z))).
  Variable eta : R.
  Hypothesis eta_small : eta < PI.
  Notation Th := (Theta zeros theta).
  Variables (turns : R -> Q) (eps delta : R) (mp : Q) (n : nat) (prec : Z * Z) (fuel : nat) (debug : bool).
  Hypothesis delta_pos : 0 < delta.
  Hypothesis n_big : (3 <= n)%nat.
  Hypothesis fuel_big : (100 * n + 3 <= fuel)%nat.
  Hypothesis turns_ok : forall p, Rabs (Q2R (turns p) - p / (2 * PI)) <= eps.
  Hypothesis sampled : well_sampled n eta L zeros r.
  Hypothesis sampled_half : well_sampled n eta L zeros half.
  Notation line := (turn_line turns f delta mp n prec fuel).
  Notation cut := (interrupted_line turns 0 f delta mp n prec fuel).
  Notation sum := (sum_line f delta mp n prec fuel 0).
  Notation fget := (frame_get f delta mp n prec fuel).
  Notation turnsE := (as_turns f turns delta mp n prec fuel).

  Lemma cut_turn a b k st st' v : line 0%Z a b st = (st', [], Ok v) -> cut 0%Z a b (S k, st) = ((k, st'), [], Ok v).
  Proof. intro H. unfold interrupted_line. cbn [fst snd]. rewrite H. reflexivity. Qed.

  Lemma resume_pair :
    exists c4 s4 c5 s5 m,
      cached_moment cut debug 0 r (new_cache, (5%nat, fresh_sum)) = ((c4, (1%nat, s4)), [], Ok m) /\
      Rabs (Q2R (re m) - INR (count zeros r)) <= 4 * eps /\
      cached_moment cut debug 0 half (c4, (1%nat, s4)) = ((c5, (0%nat, s5)), [], Err KeyboardInterrupt) /\
      forall c, (forall a b, ec_lookup 0 a b c = None) ->
      exists s2 m2, cached_moment line debug 0 r (c, s5) = (s2, [], Ok m2) /\
        Rabs (Q2R (re m2) - (INR (count zeros r) - (Th true ya xc - Th true ya xm) / (2 * PI))) <= 4 * eps + 2 * eta / (2 * PI).
  Proof.
    pose proof PI_RGT_0 as P.
    assert (M1 : (xa < xm)%Q) by (apply Qlt_shift_div_l; [reflexivity|Lqa.lra]).
    assert (M2 : (xm < xc)%Q) by (apply Qlt_shift_div_r; [reflexivity|Lqa.lra]).
    assert (W1 : wide r) by (split; assumption). assert (W2 : wide half) by (split; assumption).
    assert (I1 : inside r r) by (unfold inside; cbn; repeat split; Lqa.lra).
    assert (I2 : inside r half) by (unfold inside; cbn [x1 x2 y1 y2]; repeat split; Lqa.lra).
    assert (N2 : (2 <= n)%nat) by (clear - n_big; lia).
    pose proof (sampled_fine f zeros L r rho theta L_pos f_eq theta_lip eta n r N2 I1 W1 sampled) as F1.
    pose proof (sampled_fine f zeros L r rho theta L_pos f_eq theta_lip eta n half N2 I2 W2 sampled_half) as F2.
    pose proof (fun h l t1 t2 st HF => fresh_entry f zeros r theta f_proper eta eta_small delta mp n prec fuel
      delta_pos n_big fuel_big h l t1 t2 st HF) as G.
    set (g := ((xc - xa) / inject_Z (Z.of_nat (n - 1)))%Q).
    assert (NP : (0 < inject_Z (Z.of_nat (n - 1)))%Q) by (change 0%Q with (inject_Z 0); rewrite <- Zlt_Qlt; clear - n_big; lia).
    (* the interrupted search *)
    destruct (new_entry f zeros r theta f_proper eta eta_small delta mp n prec fuel delta_pos n_big fuel_big g true ya xa xc
      (F1 true ya xa xc ltac:(cbn; tauto)) (Qle_refl _)) as (zs1 & ph1 & _ & V1 & _ & s1 & A1 & C1).
    destruct (G false xc ya yc s1 (F1 false xc ya yc ltac:(cbn; tauto))) as (s2 & v2 & A2 & B2 & C2).
    { unfold level_free. fold (line_cache false s1). rewrite (fget _ _ _ _ _ false xc A1); [reflexivity|].
      cbn. intros [X _]. Lqa.lra. }
    destruct (G true yc xa xc s2 (F1 true yc xa xc ltac:(cbn; tauto))) as (s3 & v3 & A3 & B3 & C3).
    { unfold level_free. fold (line_cache true s2). rewrite (fget _ _ _ _ _ true yc A2), (fget _ _ _ _ _ true yc A1);
        [reflexivity|cbn; intros [X Y]; Lqa.lra|cbn; intros [X Y]; Lqa.lra]. }
    destruct (G false xa ya yc s3 (F1 false xa ya yc ltac:(cbn; tauto))) as (s4 & v4 & A4 & B4 & C4).
    { unfold level_free. fold (line_cache false s3).
      rewrite (fget _ _ _ _ _ false xa A3), (fget _ _ _ _ _ false xa A2), (fget _ _ _ _ _ false xa A1);
        [reflexivity|cbn; intros [X Y]; Lqa.lra|cbn; intros [X Y]; Lqa.lra|cbn; intros [X Y]; Lqa.lra]. }
    assert (D1 : cached (line_cache true s4) ya 0 xa StartSide = Some (zs1, ph1)).
    { rewrite <- C1. unfold cached.
      rewrite (fget _ _ _ _ _ true ya A4), (fget _ _ _ _ _ true ya A3), (fget _ _ _ _ _ true ya A2);
        [reflexivity|cbn; intros [X Y]; Lqa.lra|cbn; intros [X Y]; Lqa.lra|cbn; intros [X Y]; Lqa.lra]. }
    destruct (cut_entry f zeros r theta f_proper eta eta_small delta mp n prec fuel delta_pos n_big fuel_big g true ya xa xm xc
      (zs1, ph1) s4 (F2 true ya xa xm ltac:(cbn; tauto))) as (s5 & v5 & A5 & V5 & U5 & C5).
    { unfold g. apply Qle_shift_div_l; [exact NP|].
      setoid_replace ((xm - xa) / inject_Z (Z.of_nat (n - 1)) * inject_Z (Z.of_nat (n - 1)))%Q with (xm - xa)%Q by (field; Lqa.lra).
      Lqa.lra. }
    { Lqa.lra. }
    { exact V1. }
    { exact D1. }
    cbn [mkpoint] in A1, A2, A3, A4, A5.
    assert (A3' : sum (xc, yc) (xa, yc) s2 = (s3, SumOk [] (- (Th true yc xc - Th true yc xa))))
      by (rewrite sum_line_swap, A3 by Lqa.lra; reflexivity).
    assert (A4' : sum (xa, yc) (xa, ya) s3 = (s4, SumOk [] (- (Th false xa yc - Th false xa ya))))
      by (rewrite sum_line_swap_vertical, A4 by Lqa.lra; reflexivity).
    destruct (root_then_left cut debug xa xc ya yc new_cache
      (5%nat, fresh_sum) (4%nat, s1) (3%nat, s2) (2%nat, s3) (1%nat, s4) (0%nat, s5) (0%nat, s5)
      _ _ _ _ _ KeyboardInterrupt Hx Hy (fun _ _ => eq_refl)
      (cut_turn _ _ _ _ _ _ (turnsE _ _ _ _ _ A1)) (cut_turn _ _ _ _ _ _ (turnsE _ _ _ _ _ A2))
      (cut_turn _ _ _ _ _ _ (turnsE _ _ _ _ _ A3')) (cut_turn _ _ _ _ _ _ (turnsE _ _ _ _ _ A4'))
      (cut_turn _ _ _ _ _ _ (turnsE _ _ _ _ _ A5))) as (c4 & c5 & m & E1 & M & E2).
    { unfold interrupted_line. cbn [fst snd]. rewrite cut_zero. reflexivity. }
    exists c4, s4, c5, s5, m. split; [exact E1|]. split.
    { rewrite (Qeq_eqR _ _ M).
      pose proof (winding_side zeros L theta eta n prec r W1 sampled) as WS. cbn [x1 x2 y1 y2] in WS.
      replace (INR (count zeros r)) with (2 * PI * INR (count zeros r) / (2 * PI)) by (field; lra).
      apply (four_turns turns eps turns_ok). rewrite <- WS. ring. }
    split; [exact E2|].
    intros c HC.
    (* the next one *)
    destruct (stale_any f delta mp n prec fuel true ya xa xm xc v5 s5 Hx ltac:(Lqa.lra) U5 C5) as (u1 & U1).
    assert (D2 : cached (line_cache false u1) xc 0 ya StartSide = Some v2).
    { rewrite <- C2. unfold cached.
      rewrite (fget _ _ _ _ _ false xc U1), (fget _ _ _ _ _ false xc A5), (fget _ _ _ _ _ false xc A4), (fget _ _ _ _ _ false xc A3);
        [reflexivity|cbn; intros [X Y]; Lqa.lra|cbn; intros [X Y]; Lqa.lra|cbn; intros [X Y]; Lqa.lra|cbn; intros [X Y]; Lqa.lra]. }
    destruct (stale_start f zeros theta delta mp n prec fuel false xc ya yc yc v2 u1
      Hy ltac:(Lqa.lra) B2 D2) as (u2 & U2).
    assert (D3 : cached (line_cache true u2) yc 0 xa StartSide = Some v3).
    { rewrite <- C3. unfold cached.
      rewrite (fget _ _ _ _ _ true yc U2), (fget _ _ _ _ _ true yc U1), (fget _ _ _ _ _ true yc A5), (fget _ _ _ _ _ true yc A4);
        [reflexivity|cbn; intros [X Y]; Lqa.lra|cbn; intros [X Y]; Lqa.lra|cbn; intros [X Y]; Lqa.lra|cbn; intros [X Y]; Lqa.lra]. }
    destruct (stale_start f zeros theta delta mp n prec fuel true yc xa xc xc v3 u2
      Hx ltac:(Lqa.lra) B3 D3) as (u3 & U3).
    assert (D4 : cached (line_cache false u3) xa 0 ya StartSide = Some v4).
    { rewrite <- C4. unfold cached.
      rewrite (fget _ _ _ _ _ false xa U3), (fget _ _ _ _ _ false xa U2), (fget _ _ _ _ _ false xa U1), (fget _ _ _ _ _ false xa A5);
        [reflexivity|cbn; intros [X Y]; Lqa.lra|cbn; intros [X Y]; Lqa.lra|cbn; intros [X Y]; Lqa.lra|cbn; intros [X Y]; Lqa.lra]. }
    destruct (stale_start f zeros theta delta mp n prec fuel false xa ya yc yc v4 u3
      Hy ltac:(Lqa.lra) B4 D4) as (u4 & U4).
    cbn [mkpoint] in U1, U2, U3, U4.
    assert (U3' : sum (xc, yc) (xa, yc) u2 = (u3, SumOk [] (- (Th true yc xc - Th true yc xa))))
      by (rewrite sum_line_swap, U3 by Lqa.lra; reflexivity).
    assert (U4' : sum (xa, yc) (xa, ya) u3 = (u4, SumOk [] (- (Th false xa yc - Th false xa ya))))
      by (rewrite sum_line_swap_vertical, U4 by Lqa.lra; reflexivity).
    destruct (four_lines line debug r c s5 u1 u2 u3 u4 _ _ _ _ Hx Hy HC
      (turnsE _ _ _ _ _ U1) (turnsE _ _ _ _ _ U2) (turnsE _ _ _ _ _ U3') (turnsE _ _ _ _ _ U4')) as (c2 & m2 & E3 & M3).
    exists (c2, u4), m2. split; [exact E3|].
    rewrite (Qeq_eqR _ _ M3).
    pose proof (winding_side zeros L theta eta n prec r W1 sampled) as WS. cbn [x1 x2 y1 y2] in WS.
    pose proof (valid_sum f zeros r theta f_proper eta eta_small g true ya xa xm v5 V5) as VS.
    assert (FT := four_turns turns eps turns_ok (Rsum (snd v5)) (Th false xc yc - Th false xc ya) (- (Th true yc xc - Th true yc xa))
      (- (Th false xa yc - Th false xa ya)) _ eq_refl).
    match goal with |- Rabs (Q2R ?q0 - _) <= _ => set (q := q0) in * end. clearbody q.
    set (w := Rsum (snd v5)) in *. clearbody w.
    assert (X : (w + (Th false xc yc - Th false xc ya) + - (Th true yc xc - Th true yc xa) + - (Th false xa yc - Th false xa ya)) / (2 * PI)
      - (INR (count zeros r) - (Th true ya xc - Th true ya xm) / (2 * PI))
      = (w - (Th true ya xm - Th true ya xa)) / (2 * PI)).
    { replace (INR (count zeros r)) with (2 * PI * INR (count zeros r) / (2 * PI)) by (field; lra). rewrite <- WS. field. lra. }
    set (y := (w + _ + _ + _) / (2 * PI)) in *. clearbody y.
    set (z := INR (count zeros r) - (Th true ya xc - Th true ya xm) / (2 * PI)) in *. clearbody z.
    replace (Q2R q - z) with ((Q2R q - y) + (y - z)) by ring.
    rewrite X. eapply Rle_trans; [apply Rabs_triang|]. apply Rplus_le_compat; [exact FT|].
    unfold Rdiv. rewrite Rabs_mult, (Rabs_right (/ (2 * PI))) by (apply Rle_ge, Rlt_le, Rinv_0_lt_compat; lra).
    apply Rmult_le_compat_r; [apply Rlt_le, Rinv_0_lt_compat; lra|exact VS].
  Qed.
End Resume.
