(** * Proofs for C86: searches *)
From Coq Require Import Reals Qreals.
From Verif Require Import PyBase Cache_Proofs Container_Model Refine_Model Refine_Spec Cache_Model Sum_Model Sum_Spec Sum_Proofs Sum_Proofs2 Sum_Proofs3
  Sum_Proofs4 Sum_Proofs5 Nan_Model Nan_Spec NanRefine_Model NanRefine_Spec NanRefine_Proofs2 NanSum_Model NanSum_Spec NanSum_Proofs NanSum_Proofs3.
From Coq Require Import Lqa.
Open Scope Z_scope.
Open Scope list_scope.

(** ** The search along the lower left corner *)
Lemma corner_search {S} (E : env S) phase v (I : S -> Prop) (X Y : Q) fuel r s s' l o :
  (forall q s, x1 q = X -> y1 q = Y -> (x1 q < x2 q)%Q -> (y1 q < y2 q)%Q -> I s ->
     exists s1 m, phase q s = (s1, [], Ok (NaN, m)) /\ I s1) ->
  x1 r = X -> y1 r = Y -> (x1 r < x2 r)%Q -> (y1 r < y2 r)%Q -> I (if e_dirty E s then e_reset E s else s) ->
  xcalcRoots E phase v fuel r s = (s', l, o) ->
  (o = Raised ValueError \/ o = OutOfFuel) /\ xroots l = [].
Proof.
  intros N.
  assert (simple : forall self q s s' l o,
    (forall q s s' l o, x1 q = X -> y1 q = Y -> (x1 q < x2 q)%Q -> (y1 q < y2 q)%Q -> I s ->
       self q NaN s = (s', l, o) -> (o = Raised ValueError \/ o = OutOfFuel) /\ xroots l = []) ->
    x1 q = X -> y1 q = Y -> (x1 q < x2 q)%Q -> (y1 q < y2 q)%Q -> I s ->
    xdecide_simple E phase self q NaN s = (s', l, o) -> (o = Raised ValueError \/ o = OutOfFuel) /\ xroots l = []).
  { clear - N. intros self q s s' l o IH HX HY Lx Ly HI. unfold xdecide_simple. cbn [num_ltb].
    destruct (_ && _); [intro H; injection H as <- <- <-; auto|].
    destruct (Qltb _ _).
    - intro H. unfold xbind at 1 in H. unfold xrefined at 1, xbind at 1 in H. unfold xmoment at 1 in H.
      set (q1 := mkRect (x1 q) ((x1 q + x2 q) / 2) (y1 q) (y2 q)) in H.
      assert (Lx1 : (x1 q1 < x2 q1)%Q).
      { cbn [x1 x2 q1]. apply Qlt_shift_div_l; [reflexivity|]. Lqa.lra. }
      destruct (N q1 s HX HY Lx1 Ly HI) as (s1 & m & K & HI1). rewrite K in H. cbn [fst xret app map] in H.
      unfold xseq at 1, xbind at 1 in H.
      destruct (self q1 NaN s1) as [[s2 l2] o2] eqn:Z. apply (IH q1 s1 s2 l2 o2 HX HY Lx1 Ly HI1) in Z as [Z1 Z2].
      destruct Z1 as [->| ->]; injection H as <- <- <-; split; auto.
    - intro H. unfold xbind at 1 in H. unfold xrefined at 1, xbind at 1 in H. unfold xmoment at 1 in H.
      set (q1 := mkRect (x1 q) (x2 q) (y1 q) ((y1 q + y2 q) / 2)) in H.
      assert (Ly1 : (y1 q1 < y2 q1)%Q).
      { cbn [y1 y2 q1]. apply Qlt_shift_div_l; [reflexivity|]. Lqa.lra. }
      destruct (N q1 s HX HY Lx Ly1 HI) as (s1 & m & K & HI1). rewrite K in H. cbn [fst xret app map] in H.
      unfold xseq at 1, xbind at 1 in H.
      destruct (self q1 NaN s1) as [[s2 l2] o2] eqn:Z. apply (IH q1 s1 s2 l2 o2 HX HY Lx Ly1 HI1) in Z as [Z1 Z2].
      destruct Z1 as [->| ->]; injection H as <- <- <-; split; auto. }
  assert (dec : forall n q s s' l o, x1 q = X -> y1 q = Y -> (x1 q < x2 q)%Q -> (y1 q < y2 q)%Q -> I s ->
    xdecideRefinement E phase v n q NaN s = (s', l, o) -> (o = Raised ValueError \/ o = OutOfFuel) /\ xroots l = []).
  { induction n as [|n IH]; intros q s0 s1 l1 o1 HX HY Lx Ly HI H; cbn [xdecideRefinement] in H.
    { injection H as <- <- <-. auto. }
    destruct v.
    - exact (simple _ _ _ _ _ _ IH HX HY Lx Ly HI H).
    - unfold xdecide_newton in H. cbn [num_ltb andb] in H. exact (simple _ _ _ _ _ _ IH HX HY Lx Ly HI H).
    - unfold xdecide_poly in H. destruct (negb (e_has_df E)); [injection H as <- <- <-; auto|].
      cbn [num_ltb andb] in H. exact (simple _ _ _ _ _ _ IH HX HY Lx Ly HI H). }
  intros HX HY Lx Ly HI H. unfold xcalcRoots in H.
  destruct (N r _ HX HY Lx Ly HI) as (s1 & m & K & HI1).
  unfold xbind, xmoment in H. rewrite K in H. cbn [fst map app] in H.
  destruct (xdecideRefinement E phase v fuel r NaN s1) as [[s2 l2] o2] eqn:D.
  destruct (dec _ _ _ _ _ _ HX HY Lx Ly HI1 D) as [D1 D2].
  injection H as <- <- <-. split; [exact D1|exact D2].
Qed.

(** ** Lines starting at the lower left corner *)
Section Corner.
  Variables (f : cplx -> option cR) (delta : R) (mp : Q) (n : nat) (prec : Z * Z) (fuel : nat) (turns : R -> Q).
  Hypothesis delta_pos : (0 < delta)%R.
  Hypothesis n_big : (2 <= n)%nat.
  Hypothesis fuel_big : (100 * n + 3 <= fuel)%nat.
  Hypothesis f_ceq : forall z z', ceq z z' -> f z = f z'.
  Hypothesis no_zero : forall z v, f z = Some v -> nonzero v.
  Variables X Y : Q.
  Hypothesis corner : f (X, Y) = None.

  Notation genPhi := (genPhiArr (Some 0%R) (ovanishes f) (ophase_step f) (oat_least delta) (orefinement delta) (nearer mp) n prec).
  Notation loop := (phi_loop (Some 0%R) (ovanishes f) (ophase_step f) (oat_least delta) (orefinement delta) (nearer mp) n prec).
  Notation ret := (retrieveCached (Some 0%R) oadd oopp (ovanishes f) (ophase_step f) (oat_least delta) (orefinement delta) (nearer mp) n prec).

  Lemma never_zero z : ovanishes f z = false.
  Proof.
    unfold ovanishes. destruct (f z) as [v|] eqn:F; [|reflexivity]. apply vanishes_false. exact (no_zero z v F).
  Qed.
  Lemma never_zeros l : filter (ovanishes f) l = [].
  Proof. induction l as [|z l IH]; [reflexivity|]. cbn [filter]. rewrite never_zero. exact IH. Qed.
  Lemma func_plain fu a b k : (1 <= fu)%nat -> genFuncArr (ovanishes f) prec fu a b k = Some (linspaceC a b k, []).
  Proof. intro H. destruct fu as [|fu]; [lia|]. unfold genFuncArr. cbn [shift_loop]. rewrite never_zeros. reflexivity. Qed.

  Lemma loop_no_zeros : forall fu idx zs phis zs' phis' zeros', loop fu idx zs phis [] = Gen zs' phis' zeros' -> zeros' = [].
  Proof.
    induction fu as [|fu IH]; intros idx zs phis zs' phis' zeros' H; cbn [phi_loop] in H.
    { destruct (first_index _ _); [discriminate|]. injection H as <- <- <-. reflexivity. }
    destruct (first_index _ _) as [k|]; [|injection H as <- <- <-; reflexivity].
    destruct (nearer _ _ _); [injection H as <- <- <-; reflexivity|].
    destruct (Nat.ltb _ _); [injection H as <- <- <-; reflexivity|].
    destruct fu as [|fu].
    { unfold genFuncArr in H. cbn [shift_loop] in H. discriminate. }
    rewrite func_plain in H by lia. cbn [app] in H. exact (IH _ _ _ _ _ _ H).
  Qed.
  Lemma loop_head : forall fu idx zs phis zeros zs' phis' zeros', hd_error phis = Some None ->
    loop fu idx zs phis zeros = Gen zs' phis' zeros' -> hd_error phis' = Some None.
  Proof.
    induction fu as [|fu IH]; intros idx zs phis zeros zs' phis' zeros' HH H; cbn [phi_loop] in H.
    { destruct (first_index _ _); [discriminate|]. injection H as <- <- <-. exact HH. }
    destruct (first_index _ _) as [k|] eqn:FI; [|injection H as <- <- <-; exact HH].
    destruct (nearer _ _ _); [injection H as <- <- <-; exact HH|].
    destruct (Nat.ltb _ _); [injection H as <- <- <-; exact HH|].
    destruct (genFuncArr _ _ _ _ _ _) as [[zRef found]|]; [|discriminate].
    refine (IH _ _ _ _ _ _ _ _ H). destruct phis as [|p phis]; [discriminate|]. injection HH as ->.
    cbn [first_index oat_least] in FI. destruct (first_index (oat_least delta) phis); [|discriminate]. injection FI as <-. reflexivity.
  Qed.

  Lemma loop_no_error : forall fu idx zs phis zeros e, loop fu idx zs phis zeros <> GenErr e.
  Proof.
    induction fu as [|fu IH]; intros idx zs phis zeros e G; cbn [phi_loop] in G.
    { destruct (first_index _ _); discriminate. }
    destruct (first_index _ _); [|discriminate]. destruct (nearer _ _ _); [discriminate|]. destruct (Nat.ltb _ _); [discriminate|].
    destruct (genFuncArr _ _ _ _ _ _) as [[? ?]|]; [|discriminate]. exact (IH _ _ _ _ _ G).
  Qed.

  Lemma gen_at a b : exists zs phis, genPhi fuel 0 a b = Gen zs phis [] /\ (f a = None -> hd_error phis = Some None).
  Proof.
    unfold genPhiArr. cbn [Z.eqb]. rewrite func_plain by (clear - fuel_big; lia).
    assert (HL : @lengths (option R) (linspaceC a b n) (increments (ophase_step f) (linspaceC a b n))).
    { unfold lengths. rewrite increments_length, linspaceC_length. clear - n_big. lia. }
    pose proof (phi_loop_bound (Some 0%R) (ovanishes f) (ophase_step f) (oat_least delta) (orefinement delta) (nearer mp) n prec
      (orefinement_large delta delta_pos) never_zero (S (MAX_Z_LENGTH * n - n)) (linspaceC a b n) (increments (ophase_step f) (linspaceC a b n)) 0 [] fuel HL
      ltac:(rewrite linspaceC_length; unfold MAX_Z_LENGTH; clear - n_big; lia) ltac:(unfold MAX_Z_LENGTH; clear - n_big fuel_big; lia)) as NL.
    destruct (loop fuel 0 (linspaceC a b n) (increments (ophase_step f) (linspaceC a b n)) []) as [zs phis found|e|] eqn:G.
    - pose proof (loop_no_zeros _ _ _ _ _ _ _ G) as ->. exists zs, phis. split; [reflexivity|]. intro FA.
      refine (loop_head _ _ _ _ _ _ _ _ _ G).
      destruct n as [|[|k]]; [clear - n_big; lia|clear - n_big; lia|]. cbn [linspaceC].
      destruct (map (linpoint a b (S k)) (seq 1 k) ++ [b]) as [|z l] eqn:EL; [apply app_eq_nil in EL as [_ EL]; discriminate|].
      cbn [increments hd_error]. unfold ophase_step. rewrite FA. reflexivity.
    - exfalso. exact (loop_no_error _ _ _ _ _ _ G).
    - contradiction.
  Qed.

  (** All cached lines of a direction start at [T]; those on level [lv] begin with nan. *)
  Definition inv_c (T lv : Q) (c : lcache (option R)) : Prop :=
    forall level d, dget okey_eqb (level, 0) c = Some d ->
      exists v, dget skey_eqb (T, StartSide) d = Some v /\ ((level == lv)%Q -> hd_error (snd v) = Some None).

  Lemma sum_head l : hd_error l = Some None -> asum (Some 0%R) oadd l = None.
  Proof. destruct l as [|[p|] l]; intro H; try discriminate. apply asum_none. right. left. reflexivity. Qed.

  Lemma store_inv T lv level t v c : inv_c T lv c \/ (exists c0, inv_c T lv c0 /\ c = dset okey_eqb (level, 0) [] c0) ->
    dget okey_eqb (level, 0) c <> None -> ((level == lv)%Q -> hd_error (snd v) = Some None) ->
    inv_c T lv (storeCache level 0 T t v c).
  Proof.
    intros HC HD HV level' d' G. unfold storeCache in G.
    destruct (dget okey_eqb (level, 0) c) as [d|] eqn:D; [|contradiction]. clear HD.
    rewrite (dget_dset okey_eqb okey_t okey_s) in G.
    destruct (okey_eqb (level', 0) (level, 0)) eqn:K.
    - injection G as <-. exists v. split.
      + rewrite !(dget_dset skey_eqb skey_t skey_s), skey_SE, skey_r. reflexivity.
      + apply okey_iff in K as [K _]. cbn [fst] in K. intro L. apply HV. rewrite <- K. exact L.
    - destruct HC as [HC|(c0 & HC & ->)]; [exact (HC level' d' G)|].
      rewrite (dget_dset okey_eqb okey_t okey_s), K in G. exact (HC level' d' G).
  Qed.

  Lemma count_last {A} (p : A -> bool) l : (1 <= count_where p l)%nat -> exists m, last_index p l = Some m.
  Proof.
    unfold count_where. induction l as [|a l IH]; cbn [filter]; intro H; [cbn in H; lia|]. cbn [last_index].
    destruct (last_index p l) as [m|]; [eexists; reflexivity|]. destruct (p a); [eexists; reflexivity|].
    destruct (IH H) as [m M]. discriminate.
  Qed.

  Lemma request end_test coord point level t T lv t1 t2 c : (T < t)%Q -> t1 = T /\ t2 = t \/ t1 = t /\ t2 = T ->
    ((level == lv)%Q -> f (point T) = None) -> inv_c T lv c ->
    exists c' p, ret end_test coord point level fuel 0 t1 t2 c = LineOk c' [] p /\ inv_c T lv c' /\ ((level == lv)%Q -> p = None).
  Proof.
    intros L HT HP HC.
    assert (S1 : (if Qle_bool t1 t2 then t1 else t2) = T).
    { destruct HT as [[-> ->]|[-> ->]].
      - assert (Qle_bool T t = true) as -> by (apply Qle_bool_iff; Lqa.lra). reflexivity.
      - assert (Qle_bool t T = false) as ->; [|reflexivity]. destruct (Qle_bool t T) eqn:K; [|reflexivity]. apply Qle_bool_iff in K. Lqa.lra. }
    assert (S2 : (if Qle_bool t1 t2 then t2 else t1) = t).
    { destruct HT as [[-> ->]|[-> ->]].
      - assert (Qle_bool T t = true) as -> by (apply Qle_bool_iff; Lqa.lra). reflexivity.
      - assert (Qle_bool t T = false) as ->; [|reflexivity]. destruct (Qle_bool t T) eqn:K; [|reflexivity]. apply Qle_bool_iff in K. Lqa.lra. }
    assert (SIGN : forall a : option R, a = None -> (if Qltb t1 t2 then a else oopp a) = None).
    { intros a ->. destruct (Qltb t1 t2); reflexivity. }
    unfold retrieveCached. rewrite S1, S2.
    destruct (gen_at (point T) (point t)) as (zs & phis & G & GH). rewrite G.
    destruct (dget okey_eqb (level, 0) c) as [d|] eqn:D.
    - destruct (HC level d D) as (v & V1 & V2). rewrite V1.
      destruct (Nat.ltb _ _) eqn:CNT.
      + eexists _, _. split; [reflexivity|]. split.
        * apply store_inv; [left; exact HC|rewrite D; discriminate|]. intro K. apply GH, HP, K.
        * intro K. apply SIGN, sum_head, GH, HP, K.
      + apply Nat.ltb_ge in CNT. destruct (count_last (fun z => Qle_bool (coord z) t) (fst v) ltac:(lia)) as [m M]. rewrite M.
        assert (HV : (level == lv)%Q -> hd_error (firstn (S m) (snd v)) = Some None).
        { intro K. specialize (V2 K). destruct (snd v) as [|p l]; [discriminate|]. exact V2. }
        eexists _, _. split; [reflexivity|]. split.
        * apply store_inv; [left; exact HC|rewrite D; discriminate|exact HV].
        * intro K. apply SIGN, sum_head, HV, K.
    - eexists _, _. split; [reflexivity|]. split.
      + apply store_inv; [right; exists c; split; [exact HC|reflexivity]| |].
        * rewrite (dget_dset okey_eqb okey_t okey_s). assert (okey_eqb (level, 0) (level, 0) = true) as -> by (apply okey_iff; split; reflexivity). discriminate.
        * intro K. apply GH, HP, K.
      + intro K. apply SIGN, sum_head, GH, HP, K.
  Qed.

  Notation line := (oturn_line turns f delta mp n prec fuel).

  Definition inv_l (ls : sum_state (option R)) : Prop := inv_c X Y (horizontal ls) /\ inv_c Y X (vertical ls).

  Lemma horizontal_request level t ls : (X < t)%Q -> inv_l ls ->
    (forall a b, a = (X, level) /\ b = (t, level) \/ a = (t, level) /\ b = (X, level) ->
     exists ls' p, line a b ls = (ls', [], Ok p) /\ inv_l ls' /\ ((level == Y)%Q -> p = NaN)).
  Proof.
    intros L [I1 I2] a b HAB.
    assert (R : forall t1 t2, t1 = X /\ t2 = t \/ t1 = t /\ t2 = X ->
      exists c' p, ret horizontal_end_test re (fun u => (u, level)) level fuel 0 t1 t2 (horizontal ls) = LineOk c' [] p /\ inv_c X Y c' /\ ((level == Y)%Q -> p = None)).
    { intros t1 t2 HT. apply (request horizontal_end_test re (fun u => (u, level)) level t X Y t1 t2 (horizontal ls) L HT); [|exact I1].
      intro K. rewrite (f_ceq _ (X, Y)); [exact corner|]. split; [reflexivity|exact K]. }
    unfold oturn_line, osum_line, sumLine.
    destruct HAB as [[-> ->]|[-> ->]]; cbn [re im fst snd]; rewrite Qeq_bool_refl.
    - destruct (R X t ltac:(left; split; reflexivity)) as (c' & p & K1 & K2 & K3). rewrite K1. destruct p as [p|].
      + eexists _, _. split; [reflexivity|]. split; [split; [exact K2|exact I2]|]. intro K. specialize (K3 K). discriminate.
      + eexists _, _. split; [reflexivity|]. split; [split; [exact K2|exact I2]|]. reflexivity.
    - destruct (R t X ltac:(right; split; reflexivity)) as (c' & p & K1 & K2 & K3). rewrite K1. destruct p as [p|].
      + eexists _, _. split; [reflexivity|]. split; [split; [exact K2|exact I2]|]. intro K. specialize (K3 K). discriminate.
      + eexists _, _. split; [reflexivity|]. split; [split; [exact K2|exact I2]|]. reflexivity.
  Qed.

  Lemma vertical_request level t ls : (Y < t)%Q -> inv_l ls ->
    (forall a b, a = (level, Y) /\ b = (level, t) \/ a = (level, t) /\ b = (level, Y) ->
     exists ls' p, line a b ls = (ls', [], Ok p) /\ inv_l ls').
  Proof.
    intros L [I1 I2] a b HAB.
    assert (R : forall t1 t2, t1 = Y /\ t2 = t \/ t1 = t /\ t2 = Y ->
      exists c' p, ret vertical_end_test im (fun u => (level, u)) level fuel 0 t1 t2 (vertical ls) = LineOk c' [] p /\ inv_c Y X c' /\ ((level == X)%Q -> p = None)).
    { intros t1 t2 HT. apply (request vertical_end_test im (fun u => (level, u)) level t Y X t1 t2 (vertical ls) L HT); [|exact I2].
      intro K. rewrite (f_ceq _ (X, Y)); [exact corner|]. split; [exact K|reflexivity]. }
    unfold oturn_line, osum_line, sumLine.
    destruct HAB as [[-> ->]|[-> ->]]; cbn [re im fst snd].
    - assert (Qeq_bool Y t = false) as -> by (apply Qeqb_false; Lqa.lra). rewrite Qeq_bool_refl.
      destruct (R Y t ltac:(left; split; reflexivity)) as (c' & p & K1 & K2 & K3). rewrite K1.
      destruct p as [p|]; eexists _, _; (split; [reflexivity|split; [exact I1|exact K2]]).
    - assert (Qeq_bool t Y = false) as -> by (apply Qeqb_false; Lqa.lra). rewrite Qeq_bool_refl.
      destruct (R t Y ltac:(right; split; reflexivity)) as (c' & p & K1 & K2 & K3). rewrite K1.
      destruct p as [p|]; eexists _, _; (split; [reflexivity|split; [exact I1|exact K2]]).
  Qed.

  (** Remembered values of lines to the right of the corner are nan. *)
  Definition inv_e (c : ncache) : Prop := forall b v, (im b == Y)%Q -> dget ckey_eqb ((X, Y), b) c = Some v -> v = NaN.

  Definition inv (st : ncache * sum_state (option R)) : Prop := inv_e (fst st) /\ inv_l (snd st).

  Lemma inv_e_set c a b v : inv_e c -> (ceq a (X, Y) -> (im b == Y)%Q -> v = NaN) -> inv_e (dset ckey_eqb (a, b) v c).
  Proof.
    intros HI HV b' v' HB G. rewrite (dget_dset ckey_eqb ckey_t ckey_s) in G.
    destruct (ckey_eqb (X, Y, b') (a, b)) eqn:K; [|exact (HI b' v' HB G)].
    injection G as <-. apply ckey_iff in K as [[K1 K2] [K3 K4]]. cbn [fst snd] in *. apply HV.
    - split; symmetry; assumption.
    - rewrite <- K4. exact HB.
  Qed.

  Lemma corner_phase q st : x1 q = X -> y1 q = Y -> (x1 q < x2 q)%Q -> (y1 q < y2 q)%Q -> inv st ->
    exists st1 m, nphase line q st = (st1, [], Ok (NaN, m)) /\ inv st1.
  Proof.
    intros HX HY Lx Ly [HE HL]. destruct st as [c ls]. cbn [fst snd] in *.
    destruct q as [a b c0 d]. cbn [x1 x2 y1 y2] in *. subst a c0.
    assert (STEP : forall (A B : cplx) (es : list (cplx * cplx)) phi (c : ncache) (ls : sum_state (option R)), inv_e c -> inv_l ls ->
      (exists ls' p, line A B ls = (ls', [], Ok p) /\ inv_l ls' /\ (ceq A (X, Y) -> (im B == Y)%Q -> p = NaN)) ->
      ~ (ceq B (X, Y) /\ (im A == Y)%Q /\ ~ ceq A (X, Y)) \/ (forall ls' p, line A B ls = (ls', [], Ok p) -> p = NaN) ->
      exists (c' : ncache) (ls' : sum_state (option R)) p, inv_e c' /\ inv_l ls' /\ (ceq A (X, Y) -> (im B == Y)%Q -> p = NaN) /\
        nmoment_loop line ((A, B) :: es) phi (c, ls) =
        (let '(st', zs', v) := nmoment_loop line es (num_add phi p) (c', ls') in (st', zs', v))).
    { clear - X. intros A B es phi c ls HE HL (ls' & p & K1 & K2 & K3) NB. cbn [nmoment_loop fst snd].
      destruct (ntruthy (dget ckey_eqb (A, B) c)) eqn:T.
      - destruct (dget ckey_eqb (A, B) c) as [v|] eqn:D; [|discriminate].
        exists c, ls, v. split; [exact HE|]. split; [exact HL|]. split.
        + intros E1 E2. apply (HE B v E2). erewrite dget_cong; [exact D|exact ckey_t|exact ckey_s|].
          apply ckey_iff. cbn [fst snd]. split; [split; symmetry; apply E1|split; reflexivity].
        + destruct (nmoment_loop line es (num_add phi v) (c, ls)) as [[? ?] ?]. reflexivity.
      - rewrite K1. exists (dset ckey_eqb (B, A) (num_opp p) (dset ckey_eqb (A, B) p c)), ls', p.
        split; [|split; [exact K2|split; [exact K3|]]].
        + apply inv_e_set; [apply inv_e_set; [exact HE|exact K3]|].
          intros E1 E2. destruct NB as [NB|NB].
          * destruct (Qeq_bool (re A) X) eqn:EA.
            -- apply Qeq_bool_iff in EA. rewrite K3; [reflexivity|split; [exact EA|exact E2]|apply E1].
            -- exfalso. apply NB. split; [exact E1|]. split; [exact E2|]. intros [E3 _]. cbn in E3. apply Qeq_bool_neq in EA. contradiction.
          * rewrite (NB _ _ K1). reflexivity.
        + destruct (nmoment_loop line es (num_add phi p) _) as [[? ?] ?]. reflexivity. }
    destruct (STEP (X, Y) (b, Y) [((b, Y) : cplx, (b, d) : cplx); ((b, d) : cplx, (X, d) : cplx); ((X, d) : cplx, (X, Y) : cplx)] (Fin 0) c ls HE HL) as (c1 & ls1 & p1 & E1 & L1 & N1 & EQ1).
    { destruct (horizontal_request Y b ls Lx HL (X, Y) (b, Y) ltac:(left; split; reflexivity)) as (ls' & p & K1 & K2 & K3).
      exists ls', p. split; [exact K1|]. split; [exact K2|]. intros _ _. apply K3. reflexivity. }
    { left. intros [[Z _] _]. cbn in Z. Lqa.lra. }
    assert (p1 = NaN) as -> by (apply N1; [split; reflexivity|reflexivity]). cbn [num_add] in EQ1.
    destruct (STEP (b, Y) (b, d) [((b, d) : cplx, (X, d) : cplx); ((X, d) : cplx, (X, Y) : cplx)] NaN c1 ls1 E1 L1) as (c2 & ls2 & p2 & E2 & L2 & _ & EQ2).
    { destruct (vertical_request b d ls1 Ly L1 (b, Y) (b, d) ltac:(left; split; reflexivity)) as (ls' & p & K1 & K2).
      exists ls', p. split; [exact K1|]. split; [exact K2|]. intros [Z _]. cbn in Z. Lqa.lra. }
    { left. intros [[Z _] _]. cbn in Z. Lqa.lra. }
    destruct (STEP (b, d) (X, d) [((X, d) : cplx, (X, Y) : cplx)] (num_add NaN p2) c2 ls2 E2 L2) as (c3 & ls3 & p3 & E3 & L3 & _ & EQ3).
    { destruct (horizontal_request d b ls2 Lx L2 (b, d) (X, d) ltac:(right; split; reflexivity)) as (ls' & p & K1 & K2 & K3).
      exists ls', p. split; [exact K1|]. split; [exact K2|]. intros [Z _]. cbn in Z. Lqa.lra. }
    { left. intros [[_ Z] _]. cbn in Z. Lqa.lra. }
    destruct (STEP (X, d) (X, Y) (@nil (cplx * cplx)) (num_add (num_add NaN p2) p3) c3 ls3 E3 L3) as (c4 & ls4 & p4 & E4 & L4 & _ & EQ4).
    { destruct (vertical_request X d ls3 Ly L3 (X, d) (X, Y) ltac:(right; split; reflexivity)) as (ls' & p & K1 & K2).
      exists ls', p. split; [exact K1|]. split; [exact K2|]. intros [_ Z]. cbn in Z. Lqa.lra. }
    { left. intros (_ & Z & _). cbn in Z. Lqa.lra. }
    cbn [num_add] in EQ2, EQ3, EQ4. rewrite EQ2, EQ3 in EQ1. rewrite EQ4 in EQ1. cbn [nmoment_loop num_add] in EQ1.
    exists (c4, ls4), (Fin 0). split; [|split; [exact E4|exact L4]]. unfold nphase.
    match goal with |- context [nmoment_loop ?ln ?es ?phi ?st] =>
      assert (EQ : nmoment_loop ln es phi st = ((c4, ls4), [], Ok NaN)) by exact EQ1; rewrite EQ end. reflexivity.
  Qed.

  Lemma fresh_inv : inv ([], fresh_sum).
  Proof. split; [intros b v _ H; discriminate|]. split; intros level d H; discriminate. Qed.
End Corner.

Lemma corner_error (f : cplx -> option cR) delta mp n prec fuel turns secant newton polyroots has_df progress v depth r c s' l o :
  (0 < delta)%R -> (2 <= n)%nat -> (100 * n + 3 <= fuel)%nat ->
  (forall z z', ceq z z' -> f z = f z') -> (forall z w, takes f z w -> nonzero w) ->
  (x1 r < x2 r)%Q -> (y1 r < y2 r)%Q -> undefined f (x1 r, y1 r) ->
  xcalcRoots (nenv secant newton polyroots has_df prec progress) (nphase (oturn_line turns f delta mp n prec fuel)) v depth r
    (c, fresh_sum) = (s', l, o) ->
  (o = Raised ValueError \/ o = OutOfFuel) /\ xroots l = [].
Proof.
  intros D N F FC FN Lx Ly U H.
  refine (corner_search _ _ v (inv (x1 r) (y1 r)) (x1 r) (y1 r) depth r (c, fresh_sum) s' l o _ eq_refl eq_refl Lx Ly _ H).
  - intros q s HX HY Lx' Ly' HI. exact (corner_phase f delta mp n prec fuel turns D N F FC FN (x1 r) (y1 r) U q s HX HY Lx' Ly' HI).
  - destruct c; exact (fresh_inv _ _).
Qed.

(** ** All phases are nan or numbers *)
Definition plain (x : num) : Prop := x = NaN \/ exists q, x = Fin q.

Lemma plain_add a b : plain a -> plain b -> plain (num_add a b).
Proof. intros [->|[x ->]] [->|[y ->]]; cbn; [left|left|left|right; eexists]; reflexivity. Qed.
Lemma plain_opp a : plain a -> plain (num_opp a).
Proof. intros [->|[x ->]]; cbn; [left|right; eexists]; reflexivity. Qed.

Section Plain.
  Context {LS : Type}.
  Variable line : cplx -> cplx -> LS -> LS * list cplx * res num.
  Hypothesis line_plain : forall a b ls p, snd (line a b ls) = Ok p -> plain p.

  Definition all_plain (st : ncache * LS) : Prop := forall k v, dget ckey_eqb k (fst st) = Some v -> plain v.

  Lemma loop_plain : forall es phi st, all_plain st -> plain phi ->
    all_plain (fst (fst (nmoment_loop line es phi st))) /\ (forall p, snd (nmoment_loop line es phi st) = Ok p -> plain p).
  Proof.
    induction es as [|[a b] es IH]; intros phi st HS HP; cbn [nmoment_loop].
    { split; [exact HS|]. intros p H. injection H as <-. exact HP. }
    destruct (ntruthy (dget ckey_eqb (a, b) (fst st))) eqn:T.
    - destruct (dget ckey_eqb (a, b) (fst st)) as [v|] eqn:D; [|discriminate].
      apply IH; [exact HS|]. apply plain_add; [exact HP|exact (HS _ _ D)].
    - destruct (line a b (snd st)) as [[ls zs] [p|e]] eqn:LN.
      + assert (PP : plain p) by (apply (line_plain a b (snd st)); rewrite LN; reflexivity).
        set (c2 := dset ckey_eqb (b, a) (num_opp p) (dset ckey_eqb (a, b) p (fst st))).
        assert (H2 : all_plain (c2, ls)).
        { intros k v H. unfold c2 in H. cbn [fst] in H. rewrite !(dget_dset ckey_eqb ckey_t ckey_s) in H.
          destruct (ckey_eqb k (b, a)); [injection H as <-; apply plain_opp, PP|].
          destruct (ckey_eqb k (a, b)); [injection H as <-; exact PP|exact (HS _ _ H)]. }
        specialize (IH (num_add phi p) (c2, ls) H2 (plain_add _ _ HP PP)).
        destruct (nmoment_loop line es (num_add phi p) (c2, ls)) as [[st' zs'] w]. exact IH.
      + cbn [fst snd]. split; [exact HS|]. intros p H. discriminate.
  Qed.

  Lemma phase_plain r st : all_plain st ->
    all_plain (fst (fst (nphase line r st))) /\ (forall m, snd (nphase line r st) = Ok m -> plain (fst m)).
  Proof.
    intro HS. unfold nphase. pose proof (loop_plain (edges r) (Fin 0) st HS (or_intror (ex_intro _ 0%Q eq_refl))) as [K1 K2].
    destruct (nmoment_loop line (edges r) (Fin 0) st) as [[st' zs] [p|e]]; cbn [fst snd] in *; (split; [exact K1|]).
    - intros m H. injection H as <-. apply K2. reflexivity.
    - intros m H. discriminate.
  Qed.
End Plain.
