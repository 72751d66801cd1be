(** Termination, tiling, event characterisation, progress accounting. *)
From Verif Require Import PyBase Rounding_Model Rounding_Proofs Poly_Model Refine_Model Refine_Spec
  Refine_Proofs.
Open Scope Z_scope.

(** ** Reading logs *)
Lemma handled_app l1 l2 : handled (l1 ++ l2) = handled l1 ++ handled l2.
Proof. apply flat_map_app. Qed.
Lemma advances_app l1 l2 : advances_of (l1 ++ l2) = advances_of l1 ++ advances_of l2.
Proof. apply flat_map_app. Qed.
Lemma roots_app l1 l2 : roots_of (l1 ++ l2) = roots_of l1 ++ roots_of l2.
Proof. apply flat_map_app. Qed.
Lemma reported_app l1 l2 : reported (l1 ++ l2) = reported l1 ++ reported l2.
Proof. apply flat_map_app. Qed.
Lemma estimated_app l1 l2 : estimated (l1 ++ l2) = estimated l1 ++ estimated l2.
Proof. apply flat_map_app. Qed.
Lemma discarded_app l1 l2 : discarded (l1 ++ l2) = discarded l1 ++ discarded l2.
Proof. apply flat_map_app. Qed.

Lemma roots_of_map rs : roots_of (map EvRoot rs) = rs.
Proof. induction rs as [|a rs IH]; [reflexivity|]. cbn. f_equal. exact IH. Qed.
Lemma handled_roots rs : handled (map EvRoot rs) = [].
Proof. induction rs as [|a rs IH]; [reflexivity|]. exact IH. Qed.
Lemma reported_roots rs : reported (map EvRoot rs) = [].
Proof. induction rs as [|a rs IH]; [reflexivity|]. exact IH. Qed.
Lemma advances_roots rs : advances_of (map EvRoot rs) = [].
Proof. induction rs as [|a rs IH]; [reflexivity|]. exact IH. Qed.
Lemma estimated_roots rs : estimated (map EvRoot rs) = [].
Proof. induction rs as [|a rs IH]; [reflexivity|]. exact IH. Qed.
Lemma in_roots_of r l : In r (roots_of l) <-> In (EvRoot r) l.
Proof.
  unfold roots_of. rewrite in_flat_map. split.
  - intros (e & H & H'). destruct e; cbn in H'; try tauto. destruct H' as [<-|[]]. exact H.
  - intro H. exists (EvRoot r). split; [exact H|]. left; reflexivity.
Qed.

Lemma Qsum_app l1 l2 : (Qsum (l1 ++ l2) == Qsum l1 + Qsum l2)%Q.
Proof.
  induction l1 as [|a l1 IH]; [unfold Qsum; cbn [app fold_right]; ring|].
  unfold Qsum in *. cbn [app fold_right]. rewrite IH. ring.
Qed.

Section Facts.
  Context {S : Type} (E : env S).
  Notation small r := (sub_tolerance (e_precision E) r).

  Lemma map_root0 (zs : list cplx) :
    map (fun z => EvRoot (z, 0)) zs = map EvRoot (map (fun z => (z, 0)) zs).
  Proof. rewrite map_map. reflexivity. Qed.

  Lemma est_logs k r l m : est E k r l m ->
    handled l = [] /\ reported l = [] /\ advances_of l = [] /\
    estimated l = (if k =? 0 then [r] else []) /\
    (forall z o, In (z, o) (roots_of l) -> o = 0 /\ est_zero E z) /\
    In (EvMoment k r m) l.
  Proof.
    intros (s & s' & zs & He & ->). rewrite map_root0.
    rewrite handled_app, reported_app, advances_app, estimated_app, roots_app, roots_of_map.
    rewrite handled_roots, reported_roots, advances_roots, estimated_roots.
    repeat split; try reflexivity.
    - destruct k; reflexivity.
    - rewrite in_app_iff in H. destruct H as [H|[]]. apply in_map_iff in H.
      destruct H as (x & [= _ <-] & _). reflexivity.
    - rewrite in_app_iff in H. destruct H as [H|[]]. apply in_map_iff in H.
      destruct H as (x & [= <- _] & H). exists k, r, s. rewrite He. exact H.
    - apply in_or_app. right. left. reflexivity.
  Qed.

  Lemma est_in k r l m ev : est E k r l m -> In ev l ->
    ev = EvMoment k r m \/ exists z, ev = EvRoot (z, 0) /\ est_zero E z.
  Proof.
    intros (s & s' & zs & He & ->) H. apply in_app_or in H. destruct H as [H|[<-|[]]]; [|left; reflexivity].
    right. apply in_map_iff in H. destruct H as (z & <- & H). exists z. split; [reflexivity|].
    exists k, r, s. rewrite He. exact H.
  Qed.

  Lemma moms_logs r k n l ms : moms E r k n l ms -> 1 <= k ->
    handled l = [] /\ reported l = [] /\ advances_of l = [] /\ estimated l = [].
  Proof.
    induction 1 as [k|k n l e H|k n l1 m l2 ms H _ IH|k n l1 m l2 e H _ IH]; intro Hk.
    - repeat split; reflexivity.
    - apply est_logs in H. destruct H as (-> & -> & -> & -> & _).
      destruct (Z.eqb_spec k 0); [lia|]. auto.
    - apply est_logs in H. destruct H as (H1 & H2 & H3 & H4 & _).
      destruct (Z.eqb_spec k 0); [lia|].
      destruct IH as (I1 & I2 & I3 & I4); [lia|].
      rewrite handled_app, reported_app, advances_app, estimated_app.
      rewrite H1, H2, H3, H4, I1, I2, I3, I4. auto.
    - apply est_logs in H. destruct H as (H1 & H2 & H3 & H4 & _).
      destruct (Z.eqb_spec k 0); [lia|].
      destruct IH as (I1 & I2 & I3 & I4); [lia|].
      rewrite handled_app, reported_app, advances_app, estimated_app.
      rewrite H1, H2, H3, H4, I1, I2, I3, I4. auto.
  Qed.

  Lemma moms_in r k n l ms ev : moms E r k n l ms -> In ev l ->
    (exists j m, k <= j /\ ev = EvMoment j r m) \/ exists z, ev = EvRoot (z, 0) /\ est_zero E z.
  Proof.
    induction 1 as [k|k n l e H|k n l1 m l2 ms H _ IH|k n l1 m l2 e H _ IH]; intro Hi.
    - destruct Hi.
    - eapply est_in in Hi; [|exact H]. destruct Hi as [->|Hi]; [|auto]. left.
      exists k, (Err e). split; [lia|reflexivity].
    - apply in_app_or in Hi. destruct Hi as [Hi|Hi].
      + eapply est_in in Hi; [|exact H]. destruct Hi as [->|Hi]; [|auto]. left.
        exists k, (Ok m). split; [lia|reflexivity].
      + destruct (IH Hi) as [(j & m' & Hj & ->)|?]; [|auto]. left. exists j, m'. split; [lia|reflexivity].
    - apply in_app_or in Hi. destruct Hi as [Hi|Hi].
      + eapply est_in in Hi; [|exact H]. destruct Hi as [->|Hi]; [|auto]. left.
        exists k, (Ok m). split; [lia|reflexivity].
      + destruct (IH Hi) as [(j & m' & Hj & ->)|?]; [|auto]. left. exists j, m'. split; [lia|reflexivity].
  Qed.

  Lemma moms_values r k n l ms : moms E r k n l (Ok ms) ->
    List.length ms = n /\
    forall i, (i < n)%nat -> In (EvMoment (k + Z.of_nat i) r (Ok (nth i ms c0))) l.
  Proof.
    remember (Ok ms) as x eqn:Ex. intro H. revert ms Ex.
    induction H as [k|k n l e H|k n l1 m l2 ms H _ IH|k n l1 m l2 e H _ IH]; intros ms' [= <-].
    - split; [reflexivity|]. intros i Hi. lia.
    - destruct (IH ms eq_refl) as [IL II]. split; [cbn; lia|].
      intros [|i] Hi.
      + apply in_or_app. left. replace (k + Z.of_nat 0) with k by lia. cbn [nth].
        apply est_logs in H. tauto.
      + apply in_or_app. right. cbn [nth].
        replace (k + Z.of_nat (Datatypes.S i)) with (k + 1 + Z.of_nat i) by lia. apply II. lia.
  Qed.

  Lemma adv_logs a : handled (adv E a) = [] /\ reported (adv E a) = [] /\
    advances_of (adv E a) = (if e_progress E then [a] else []) /\ estimated (adv E a) = [] /\
    roots_of (adv E a) = [].
  Proof. unfold adv. destruct (e_progress E); repeat split; reflexivity. Qed.

  (** ** Halving *)
  Definition below (r : rect) (a b : nat) : Prop :=
    (x2 r - x1 r < inject_Z (2 ^ Z.of_nat a) * pow10 (- fst (e_precision E)) /\
     y2 r - y1 r < inject_Z (2 ^ Z.of_nat b) * pow10 (- snd (e_precision E)))%Q.

  Lemma two_S a : (inject_Z (2 ^ Z.of_nat (Datatypes.S a)) == 2 * inject_Z (2 ^ Z.of_nat a))%Q.
  Proof.
    rewrite Nat2Z.inj_succ, Z.pow_succ_r by lia. rewrite inject_Z_mult. reflexivity.
  Qed.

  Lemma Qdiv_lt_1 (x e : Q) : (0 < e -> x / e < 1 <-> x < e)%Q.
  Proof.
    intro He. split; intro H.
    - setoid_replace x with (x / e * e)%Q by (field; lra).
      setoid_replace e with (1 * e)%Q at 3 by ring. apply Qmult_lt_compat_r; assumption.
    - apply Qlt_shift_div_r; [exact He|]. lra.
  Qed.

  Lemma splits_below r A B a b : splits E r A B -> below r a b ->
    (exists a', a = Datatypes.S a' /\ below A a' b /\ below B a' b) \/
    (exists b', b = Datatypes.S b' /\ below A a b' /\ below B a b').
  Proof.
    intros [Hn H] [Ha Hb].
    pose proof (pow10_pos (- fst (e_precision E))) as P1.
    pose proof (pow10_pos (- snd (e_precision E))) as P2.
    unfold sub_tolerance in Hn. unfold deltaRe, deltaIm, epsRe, epsIm in H.
    set (e1 := pow10 (- fst (e_precision E))) in *.
    set (e2 := pow10 (- snd (e_precision E))) in *.
    destruct H as [(Hr & -> & ->)|(Hr & -> & ->)].
    - left. destruct a as [|a'].
      + exfalso. apply Hn. change (inject_Z (2 ^ Z.of_nat 0)) with 1%Q in Ha. assert (Hx : (x2 r - x1 r < e1)%Q) by lra.
        split; [exact Hx|]. apply Qdiv_lt_1; [exact P2|].
        apply (Qdiv_lt_1 _ _ P1) in Hx. lra.
      + exists a'. split; [reflexivity|]. rewrite two_S in Ha.
        assert (Hz : ((x2 r - x1 r) / 2 < inject_Z (2 ^ Z.of_nat a') * e1)%Q).
        { apply Qlt_shift_div_r; [reflexivity|]. lra. }
        assert (Hm : ((x1 r + x2 r) / 2 - x1 r == (x2 r - x1 r) / 2)%Q) by field.
        assert (Hm' : (x2 r - (x1 r + x2 r) / 2 == (x2 r - x1 r) / 2)%Q) by field.
        unfold below; cbn [x1 x2 y1 y2]. fold e1 e2. rewrite Hm, Hm'. auto.
    - right. destruct b as [|b'].
      + exfalso. apply Hn. change (inject_Z (2 ^ Z.of_nat 0)) with 1%Q in Hb. assert (Hx : (y2 r - y1 r < e2)%Q) by lra.
        split; [|exact Hx]. apply Qdiv_lt_1; [exact P1|].
        apply (Qdiv_lt_1 _ _ P2) in Hx. lra.
      + exists b'. split; [reflexivity|]. rewrite two_S in Hb.
        assert (Hz : ((y2 r - y1 r) / 2 < inject_Z (2 ^ Z.of_nat b') * e2)%Q).
        { apply Qlt_shift_div_r; [reflexivity|]. lra. }
        assert (Hm : ((y1 r + y2 r) / 2 - y1 r == (y2 r - y1 r) / 2)%Q) by field.
        assert (Hm' : (y2 r - (y1 r + y2 r) / 2 == (y2 r - y1 r) / 2)%Q) by field.
        unfold below; cbn [x1 x2 y1 y2]. fold e1 e2. rewrite Hm, Hm'. auto.
  Qed.

  Lemma half_mid (a b : Q) : (a <= b -> a <= (a + b) / 2 <= b)%Q.
  Proof.
    intro H. split.
    - apply Qle_shift_div_l; [reflexivity|lra].
    - apply Qle_shift_div_r; [reflexivity|lra].
  Qed.

  Lemma splits_geometry r A B : splits E r A B -> proper r ->
    proper A /\ proper B /\ sub_rect A r /\ sub_rect B r /\ interiors_disjoint A B /\
    (area A + area B == area r)%Q /\
    (forall z, inside r z -> inside A z \/ inside B z).
  Proof.
    intros [_ [(_ & -> & ->)|(_ & -> & ->)]] [Hx Hy];
      pose proof (half_mid _ _ Hx) as Mx; pose proof (half_mid _ _ Hy) as My.
    - set (mid := ((x1 r + x2 r) / 2)%Q) in *.
      unfold proper, sub_rect, interiors_disjoint, strictly_inside, inside, area, deltaRe, deltaIm.
      cbn [x1 x2 y1 y2].
      split; [lra|]. split; [lra|]. split; [lra|]. split; [lra|]. split; [intros z; lra|]. split; [ring|].
      intros z Hz. destruct (Qlt_le_dec (re z) mid); [left|right]; lra.
    - set (mid := ((y1 r + y2 r) / 2)%Q) in *.
      unfold proper, sub_rect, interiors_disjoint, strictly_inside, inside, area, deltaRe, deltaIm.
      cbn [x1 x2 y1 y2].
      split; [lra|]. split; [lra|]. split; [lra|]. split; [lra|]. split; [intros z; lra|]. split; [ring|].
      intros z Hz. destruct (Qlt_le_dec (im z) mid); [left|right]; lra.
  Qed.

  Lemma sub_rect_refl r : sub_rect r r.
  Proof. unfold sub_rect; lra. Qed.
  Lemma sub_rect_trans a b c : sub_rect a b -> sub_rect b c -> sub_rect a c.
  Proof. unfold sub_rect; lra. Qed.
  Lemma sub_rect_strict a b z : sub_rect a b -> strictly_inside a z -> strictly_inside b z.
  Proof. unfold sub_rect, strictly_inside; lra. Qed.
  Lemma area_nonneg r : proper r -> (0 <= area r)%Q.
  Proof.
    intros [Hx Hy]. unfold area, deltaRe, deltaIm. apply Qmult_le_0_compat; lra.
  Qed.

  (** ** C20 *)
  Ltac logs :=
    repeat match goal with
    | H : est _ _ _ _ _ |- _ => apply est_logs in H;
        destruct H as (?Lh & ?Lr & ?La & ?Le & ?Lroots & ?Lin)
    end.

  Lemma newton_logs r phi l o : newton_result E r phi l o ->
    handled l = [r] /\ reported l = [] /\ estimated l = [] /\ discarded l = [] /\
    advances_of l = advances_of (adv E (area r)).
  Proof.
    intros (rs & x & -> & _). change (EvNewton r phi :: ?l) with ([EvNewton r phi] ++ l).
    rewrite !handled_app, !reported_app, !estimated_app, !advances_app, !discarded_app,
      handled_roots, reported_roots, estimated_roots, advances_roots.
    destruct (adv_logs (area r)) as (-> & -> & ? & -> & _).
    repeat split. clear. induction rs as [|a rs IH]; [unfold adv; destruct (e_progress E); reflexivity|].
    exact IH.
  Qed.

  Lemma poly_logs r phi l o : poly_result E r phi l o ->
    (handled l = [] \/ handled l = [r]) /\ (o = Done tt -> handled l = [r]) /\
    reported l = [] /\ estimated l = [] /\ o <> OutOfFuel /\
    (handled l = [] -> advances_of l = []) /\
    (handled l = [r] -> advances_of l = advances_of (adv E (area r))).
  Proof.
    intros (l1 & [ms|e] & H & K).
    - apply moms_logs in H; [|lia]. destruct H as (H1 & H2 & H3 & H4).
      destruct (e_polyroots E _) as [rts|e].
      + destruct K as [-> ->].
        change (EvPoly r phi :: ?l) with ([EvPoly r phi] ++ l).
        rewrite !handled_app, !reported_app, !estimated_app, !advances_app,
          handled_roots, reported_roots, estimated_roots, advances_roots.
        destruct (adv_logs (area r)) as (-> & -> & ? & -> & _).
        rewrite H1, H2, H3, H4. cbn. repeat split; auto; discriminate.
      + destruct K as [-> ->]. rewrite H1, H2, H3, H4. repeat split; auto; discriminate.
    - destruct K as [-> ->]. apply moms_logs in H; [|lia]. destruct H as (H1 & H2 & H3 & H4).
      rewrite H1, H2, H3, H4. repeat split; auto; discriminate.
  Qed.

  Lemma newton_nofuel r phi l o : newton_result E r phi l o -> o <> OutOfFuel.
  Proof. intros (rs & x & _ & -> & _). destruct x as [[]|]; discriminate. Qed.

  Lemma runs_terminate v n r phi l o : runs E v n r phi l o ->
    forall a b, below r a b -> (a + b < n)%nat -> o <> OutOfFuel.
  Proof.
    induction 1 as [r phi|n r phi Hv Hdf|n r phi Hdf Hp|n r phi Hdf Hp Hs|n r phi l o Hv Hs Hz HN
      |n r phi l o Hv Hdf Hs Hz HP|n r phi A B l e Hdf Hp Hz HAB H1
      |n r phi A B l1 m l2 o Hdf Hp Hz HAB H1 H2 IH2 Ho
      |n r phi A B l1 m l2 l3 e Hdf Hp Hz HAB H1 H2 IH2 H3
      |n r phi A B l1 m l2 l3 m2 l4 o Hdf Hp Hz HAB H1 H2 IH2 H3 H4 IH4];
      intros a b Hb Hn; try discriminate; try lia.
    - eapply newton_nofuel; exact HN.
    - apply poly_logs in HP. tauto.
    - destruct (splits_below _ _ _ _ _ HAB Hb) as [(a' & -> & HA & HB)|(b' & -> & HA & HB)];
        apply (IH2 _ _ HA); lia.
    - destruct (splits_below _ _ _ _ _ HAB Hb) as [(a' & -> & HA & HB)|(b' & -> & HA & HB)];
        apply (IH4 _ _ HB); lia.
  Qed.

  Lemma runs_sizes v n r phi l o : runs E v n r phi l o ->
    forall a b, below r a b ->
      (List.length (handled l) <= 2 ^ (a + b))%nat /\
      (List.length (estimated l) + 2 <= 2 * 2 ^ (a + b))%nat.
  Proof.
    assert (P : forall k, (1 <= 2 ^ k)%nat) by (intro k; induction k; cbn; lia).
    induction 1 as [r phi|n r phi Hv Hdf|n r phi Hdf Hp|n r phi Hdf Hp Hs|n r phi l o Hv Hs Hz HN
      |n r phi l o Hv Hdf Hs Hz HP|n r phi A B l e Hdf Hp Hz HAB H1
      |n r phi A B l1 m l2 o Hdf Hp Hz HAB H1 H2 IH2 Ho
      |n r phi A B l1 m l2 l3 e Hdf Hp Hz HAB H1 H2 IH2 H3
      |n r phi A B l1 m l2 l3 m2 l4 o Hdf Hp Hz HAB H1 H2 IH2 H3 H4 IH4];
      intros a b Hb; pose proof (P (a + b)%nat) as Pab.
    - cbn; lia.
    - cbn; lia.
    - change (EvDiscard r phi :: ?l) with ([EvDiscard r phi] ++ l).
      rewrite handled_app, estimated_app. destruct (adv_logs (area r)) as (-> & _ & _ & -> & _).
      cbn; lia.
    - change (EvReport r phi :: ?x :: ?l) with ([EvReport r phi; x] ++ l).
      rewrite handled_app, estimated_app.
      destruct (adv_logs (deltaRe r * (0 - 0))) as (-> & _ & _ & -> & _). cbn; lia.
    - apply newton_logs in HN. destruct HN as (-> & _ & -> & _). cbn; lia.
    - apply poly_logs in HP. destruct HP as (HP & _ & _ & -> & _).
      destruct HP as [HP|HP]; rewrite HP; cbn; lia.
    - logs. rewrite Lh, Le. cbn [Z.eqb List.length].
      destruct (splits_below _ _ _ _ _ HAB Hb) as [(a' & -> & HA & HB)|(b' & -> & HA & HB)].
      + pose proof (P (a' + b)%nat). cbn [Nat.add Nat.pow]. lia.
      + pose proof (P (a + b')%nat). rewrite Nat.add_succ_r. cbn [Nat.pow]. lia.
    - logs. rewrite handled_app, estimated_app, Lh, Le. cbn [Z.eqb List.length app].
      destruct (splits_below _ _ _ _ _ HAB Hb) as [(a' & -> & HA & HB)|(b' & -> & HA & HB)].
      + pose proof (P (a' + b)%nat). destruct (IH2 _ _ HA). cbn [Nat.add Nat.pow]. lia.
      + pose proof (P (a + b')%nat). destruct (IH2 _ _ HA). rewrite Nat.add_succ_r. cbn [Nat.pow]. lia.
    - logs. rewrite !handled_app, !estimated_app, Lh, Le, Lh0, Le0.
      cbn [Z.eqb List.length app]. rewrite !app_nil_r, app_length. cbn [List.length].
      destruct (splits_below _ _ _ _ _ HAB Hb) as [(a' & -> & HA & HB)|(b' & -> & HA & HB)].
      + pose proof (P (a' + b)%nat). destruct (IH2 _ _ HA). cbn [Nat.add Nat.pow]. lia.
      + pose proof (P (a + b')%nat). destruct (IH2 _ _ HA). rewrite Nat.add_succ_r. cbn [Nat.pow]. lia.
    - logs. rewrite !handled_app, !estimated_app, Lh, Le, Lh0, Le0.
      cbn [Z.eqb List.length app]. rewrite !app_length. cbn [List.length].
      destruct (splits_below _ _ _ _ _ HAB Hb) as [(a' & -> & HA & HB)|(b' & -> & HA & HB)].
      + destruct (IH2 _ _ HA), (IH4 _ _ HB). cbn [Nat.add Nat.pow]. lia.
      + destruct (IH2 _ _ HA), (IH4 _ _ HB). rewrite Nat.add_succ_r. cbn [Nat.pow]. lia.
  Qed.

  (** ** C21 *)
  Lemma tiles_one r : proper r -> tiles r [r].
  Proof.
    intro Hr. split; [|split; [|split]].
    - intros z Hz. exists r. split; [left; reflexivity|exact Hz].
    - intros a [<-|[]]. split; [apply sub_rect_refl|exact Hr].
    - constructor; constructor.
    - cbn. ring.
  Qed.

  Lemma FOP_app {A} (R : A -> A -> Prop) l1 l2 :
    ForallOrdPairs R l1 -> ForallOrdPairs R l2 ->
    (forall a b, In a l1 -> In b l2 -> R a b) -> ForallOrdPairs R (l1 ++ l2).
  Proof.
    induction 1 as [|a l H1 H2 IH]; intros HR Hx; [exact HR|]. cbn. constructor.
    - rewrite Forall_app. split; [exact H1|]. rewrite Forall_forall. intros b Hb.
      apply Hx; [left; reflexivity|exact Hb].
    - apply IH; [exact HR|]. intros c d Hc Hd. apply Hx; [right|]; assumption.
  Qed.

  Lemma tiles_split r A B la lb : splits E r A B -> proper r ->
    tiles A la -> tiles B lb -> tiles r (la ++ lb).
  Proof.
    intros HS Hr (A1 & A2 & A3 & A4) (B1 & B2 & B3 & B4).
    destruct (splits_geometry _ _ _ HS Hr) as (PA & PB & SA & SB & D & AR & C).
    split; [|split; [|split]].
    - intros z Hz. destruct (C z Hz) as [H|H].
      + destruct (A1 z H) as (a & Ha & Hz'). exists a. split; [apply in_or_app; auto|exact Hz'].
      + destruct (B1 z H) as (a & Ha & Hz'). exists a. split; [apply in_or_app; auto|exact Hz'].
    - intros a H. apply in_app_or in H. destruct H as [H|H].
      + split; [eapply sub_rect_trans; [apply A2, H|exact SA]|apply A2, H].
      + split; [eapply sub_rect_trans; [apply B2, H|exact SB]|apply B2, H].
    - apply FOP_app; [exact A3|exact B3|]. intros a b Ha Hb z [Z1 Z2].
      apply (D z). split; [apply (sub_rect_strict a)|apply (sub_rect_strict b)]; try assumption;
        [apply A2, Ha|apply B2, Hb].
    - rewrite map_app, Qsum_app, A4, B4. exact AR.
  Qed.

  Lemma runs_tiles v n r phi l o : runs E v n r phi l o -> o = Done tt -> proper r ->
    tiles r (handled l).
  Proof.
    induction 1 as [r phi|n r phi Hv Hdf|n r phi Hdf Hp|n r phi Hdf Hp Hs|n r phi l o Hv Hs Hz HN
      |n r phi l o Hv Hdf Hs Hz HP|n r phi A B l e Hdf Hp Hz HAB H1
      |n r phi A B l1 m l2 o Hdf Hp Hz HAB H1 H2 IH2 Ho
      |n r phi A B l1 m l2 l3 e Hdf Hp Hz HAB H1 H2 IH2 H3
      |n r phi A B l1 m l2 l3 m2 l4 o Hdf Hp Hz HAB H1 H2 IH2 H3 H4 IH4];
      intros Hd Hr; try discriminate; try contradiction.
    - change (EvDiscard r phi :: ?l) with ([EvDiscard r phi] ++ l).
      rewrite handled_app. destruct (adv_logs (area r)) as (-> & _). apply tiles_one, Hr.
    - change (EvReport r phi :: ?x :: ?l) with ([EvReport r phi; x] ++ l).
      rewrite handled_app. destruct (adv_logs (deltaRe r * (0 - 0))) as (-> & _).
      apply tiles_one, Hr.
    - apply newton_logs in HN. destruct HN as (-> & _). apply tiles_one, Hr.
    - apply poly_logs in HP. destruct HP as (_ & HP & _). rewrite HP by exact Hd. apply tiles_one, Hr.
    - logs. rewrite !handled_app, Lh, Lh0. cbn [app].
      destruct (splits_geometry _ _ _ HAB Hr) as (PA & PB & _).
      eapply tiles_split; [exact HAB|exact Hr|apply IH2; auto|apply IH4; auto].
  Qed.

  (** ** Which events occur *)
  Definition estimate_in (l : list event) (r : rect) (p : Q) : Prop :=
    exists m, In (EvMoment 0 r (Ok m)) l /\ p = re m.

  Definition event_ok (v : variant) (r0 : rect) (phi0 : Q) (l : list event) (ev : event) : Prop :=
    let here r p := (r = r0 /\ p = phi0) \/ estimate_in l r p in
    match ev with
    | EvRoot (z, k) =>
        (k = 0 /\ est_zero E z) \/
        (exists r p, In (EvReport r p) l /\ z = center r /\ k = round_half_even p) \/
        (exists r p, In (EvNewton r p) l /\ k = 1 /\
           (e_secant E (x1 r, (1 # 2) * (y1 r + y2 r))%Q (x2 r, (1 # 2) * (y1 r + y2 r))%Q = Ok z \/
            (e_has_df E = true /\
             e_newton E ((x1 r + x2 r) * (1 # 2), (y1 r + y2 r) * (1 # 2))%Q = Ok z))) \/
        (exists r p ms rts, In (EvPoly r p) l /\
           Z.of_nat (List.length ms) = round_half_even p /\
           (forall i, (i < List.length ms)%nat -> In (EvMoment (1 + Z.of_nat i) r (Ok (nth i ms c0))) l) /\
           e_polyroots E (coefficients_cplx ms) = Ok rts /\
           In (z, k) (group_roots (e_precision E) rts))
    | EvAdvance a => e_progress E = true /\ (0 <= a)%Q
    | EvMoment k r m => 0 <= k /\ sub_rect r r0 /\ proper r
    | EvDiscard r p => sub_rect r r0 /\ proper r /\ here r p /\ (p < TWO_PI)%Q
    | EvReport r p => sub_rect r r0 /\ proper r /\ here r p /\ (TWO_PI <= p)%Q /\ small r
    | EvNewton r p => sub_rect r r0 /\ proper r /\ here r p /\ v = NewtonV /\ ~ small r /\ solver_zone v r p
    | EvPoly r p => sub_rect r r0 /\ proper r /\ here r p /\ v = PolyV /\ ~ small r /\ solver_zone v r p
    end.

  Lemma event_ok_weaken v A phiA r phi l l' ev :
    event_ok v A phiA l ev -> sub_rect A r -> incl l l' -> estimate_in l' A phiA ->
    event_ok v r phi l' ev.
  Proof.
    intros H HS HI HE. destruct ev as [[z k]|a|k q m|q p|q p|q p|q p]; cbn in *.
    - destruct H as [H|[(q & p & H1 & H2)|[(q & p & H1 & H2)|(q & p & ms & rts & H1 & H2 & H3 & H4)]]].
      + left; exact H.
      + right; left. exists q, p. auto.
      + right; right; left. exists q, p. auto.
      + right; right; right. exists q, p, ms, rts. split; [apply HI, H1|]. split; [exact H2|].
        split; [|exact H4]. intros i Hi. apply HI, H3, Hi.
    - exact H.
    - destruct H as (H0 & H1 & H2). split; [exact H0|]. split; [eapply sub_rect_trans; eassumption|exact H2].
    - destruct H as (H1 & H2 & H3 & H4). split; [eapply sub_rect_trans; eassumption|].
      split; [exact H2|]. split; [|tauto].
      right. destruct H3 as [[-> ->]|(m & Hm & ->)]; [exact HE|]. exists m; auto.
    - destruct H as (H1 & H2 & H3 & H4 & H5). split; [eapply sub_rect_trans; eassumption|].
      split; [exact H2|]. split; [|tauto].
      right. destruct H3 as [[-> ->]|(m & Hm & ->)]; [exact HE|]. exists m; auto.
    - destruct H as (H1 & H2 & H3 & H4 & H5 & H6). split; [eapply sub_rect_trans; eassumption|].
      split; [exact H2|]. split; [|tauto].
      right. destruct H3 as [[-> ->]|(m & Hm & ->)]; [exact HE|]. exists m; auto.
    - destruct H as (H1 & H2 & H3 & H4 & H5 & H6). split; [eapply sub_rect_trans; eassumption|].
      split; [exact H2|]. split; [|tauto].
      right. destruct H3 as [[-> ->]|(m & Hm & ->)]; [exact HE|]. exists m; auto.
  Qed.

  Lemma est_events_ok v A r phi l l' m ev : est E 0 A l m -> sub_rect A r -> proper A ->
    In ev l -> event_ok v r phi l' ev.
  Proof.
    intros H HS HP Hi. eapply est_in in Hi; [|exact H].
    destruct Hi as [->|(z & -> & Hz)]; cbn; [auto with zarith|]. left; auto.
  Qed.

  Lemma in_adv ev a : In ev (adv E a) -> e_progress E = true /\ ev = EvAdvance a.
  Proof. unfold adv. destruct (e_progress E); cbn; [|tauto]. intros [<-|[]]; auto. Qed.

  Lemma runs_events v n r phi l o : runs E v n r phi l o -> proper r ->
    forall ev, In ev l -> event_ok v r phi l ev.
  Proof.
    induction 1 as [r phi|n r phi Hv Hdf|n r phi Hdf Hp|n r phi Hdf Hp Hs|n r phi l o Hv Hs Hz HN
      |n r phi l o Hv Hdf Hs Hz HP|n r phi A B l e Hdf Hp Hz HAB H1
      |n r phi A B l1 m l2 o Hdf Hp Hz HAB H1 H2 IH2 Ho
      |n r phi A B l1 m l2 l3 e Hdf Hp Hz HAB H1 H2 IH2 H3
      |n r phi A B l1 m l2 l3 m2 l4 o Hdf Hp Hz HAB H1 H2 IH2 H3 H4 IH4];
      intros Hr ev Hi.
    - destruct Hi.
    - destruct Hi.
    - destruct Hi as [<-|Hi].
      + cbn [event_ok]. split; [apply sub_rect_refl|]. auto 10.
      + apply in_adv in Hi. destruct Hi as [Hp' ->]. cbn. split; [exact Hp'|apply area_nonneg, Hr].
    - destruct Hi as [<-|[<-|Hi]].
      + cbn [event_ok]. split; [apply sub_rect_refl|]. auto 10.
      + cbn. right; left. exists r, phi. repeat split. left; reflexivity.
      + apply in_adv in Hi. destruct Hi as [Hp' ->]. cbn. split; [exact Hp'|].
        setoid_replace (deltaRe r * (0 - 0))%Q with 0%Q by ring. lra.
    - destruct HN as (rs & x & -> & _ & K). destruct Hi as [<-|Hi].
      + cbn [event_ok]. split; [apply sub_rect_refl|]. auto 10.
      + apply in_app_or in Hi. destruct Hi as [Hi|Hi].
        * apply in_map_iff in Hi. destruct Hi as ([z k] & <- & Hi). cbn. right; right; left.
          exists r, phi. split; [left; reflexivity|]. cbv zeta in K.
          destruct (e_secant E _ _) as [z1|e1].
          -- destruct (e_has_df E).
             ++ destruct (e_newton E _) as [z2|e2]; destruct K as [-> _]; cbn in Hi.
                ** destruct Hi as [Hi|[Hi|[]]]; injection Hi as <- <-; auto.
                ** destruct Hi as [Hi|[]]; injection Hi as <- <-; auto.
             ++ destruct K as [-> _]. destruct Hi as [Hi|[]]; injection Hi as <- <-; auto.
          -- destruct K as [-> _]. destruct Hi.
        * apply in_adv in Hi. destruct Hi as [Hp' ->]. split; [exact Hp'|apply area_nonneg, Hr].
    - destruct HP as (l1 & [ms|e] & HM & K).
      + destruct (e_polyroots E _) as [rts|e] eqn:Hrts.
        * destruct K as [-> ->].
          apply in_app_or in Hi. destruct Hi as [Hi|[<-|Hi]].
          -- eapply moms_in in Hi; [|exact HM].
             destruct Hi as [(j & m & Hj & ->)|(z & -> & Hz')]; cbn.
             ++ split; [lia|]. split; [apply sub_rect_refl|exact Hr].
             ++ left; auto.
          -- cbn [event_ok]. split; [apply sub_rect_refl|]. auto 10.
          -- apply in_app_or in Hi. destruct Hi as [Hi|Hi].
             ++ apply in_map_iff in Hi. destruct Hi as ([z k] & <- & Hi). cbn. right; right; right.
                apply moms_values in HM. destruct HM as [HL HM].
                exists r, phi, ms, rts. repeat split; try assumption.
                ** apply in_or_app. right; left; reflexivity.
                ** rewrite HL. apply Z2Nat.id. apply Z.le_trans with 1; [lia|].
                   change 1 with (round_half_even (8 # 10)). apply round_half_even_mono.
                   rewrite Hv in Hz. destruct Hz as [Hz _]. unfold TWO_PI in Hz. lra.
                ** intros i Hlt. apply in_or_app. left. apply HM. lia.
             ++ apply in_adv in Hi. destruct Hi as [Hp' ->]. split; [exact Hp'|apply area_nonneg, Hr].
        * destruct K as [-> ->]. eapply moms_in in Hi; [|exact HM].
          destruct Hi as [(j & m & Hj & ->)|(z & -> & Hz')]; cbn.
          -- split; [lia|]. split; [apply sub_rect_refl|exact Hr].
          -- left; auto.
      + destruct K as [-> ->]. eapply moms_in in Hi; [|exact HM].
        destruct Hi as [(j & m & Hj & ->)|(z & -> & Hz')]; cbn.
        * split; [lia|]. split; [apply sub_rect_refl|exact Hr].
        * left; auto.
    - destruct (splits_geometry _ _ _ HAB Hr) as (PA & PB & SA & SB & _).
      eapply est_events_ok; [| | |exact Hi]; eassumption.
    - destruct (splits_geometry _ _ _ HAB Hr) as (PA & PB & SA & SB & _).
      apply in_app_or in Hi. destruct Hi as [Hi|Hi]; [eapply est_events_ok; [| | |exact Hi]; eassumption|].
      eapply event_ok_weaken; [apply IH2; [exact PA|exact Hi]|exact SA|apply incl_appr, incl_refl|].
      exists m. split; [|reflexivity]. apply in_or_app; left. apply est_logs in H1. tauto.
    - destruct (splits_geometry _ _ _ HAB Hr) as (PA & PB & SA & SB & _).
      apply in_app_or in Hi. destruct Hi as [Hi|Hi]; [eapply est_events_ok; [| | |exact Hi]; eassumption|].
      apply in_app_or in Hi. destruct Hi as [Hi|Hi]; [|eapply est_events_ok; [| | |exact Hi]; eassumption].
      eapply event_ok_weaken; [apply IH2; [exact PA|exact Hi]|exact SA
        |apply incl_appr, incl_appl, incl_refl|].
      exists m. split; [|reflexivity]. apply in_or_app; left. apply est_logs in H1. tauto.
    - destruct (splits_geometry _ _ _ HAB Hr) as (PA & PB & SA & SB & _).
      apply in_app_or in Hi. destruct Hi as [Hi|Hi]; [eapply est_events_ok; [| | |exact Hi]; eassumption|].
      apply in_app_or in Hi. destruct Hi as [Hi|Hi].
      + eapply event_ok_weaken; [apply IH2; [exact PA|exact Hi]|exact SA
          |apply incl_appr, incl_appl, incl_refl|].
        exists m. split; [|reflexivity]. apply in_or_app; left. apply est_logs in H1. tauto.
      + apply in_app_or in Hi. destruct Hi as [Hi|Hi]; [eapply est_events_ok; [| | |exact Hi]; eassumption|].
        eapply event_ok_weaken; [apply IH4; [exact PB|exact Hi]|exact SB
          |apply incl_appr, incl_appr, incl_appr, incl_refl|].
        exists m2. split; [|reflexivity]. apply in_or_app; right. apply in_or_app; right.
        apply in_or_app; left. apply est_logs in H3. tauto.
  Qed.

  (** ** C29 *)
  Lemma runs_progress v n r phi l o : runs E v n r phi l o -> proper r -> e_progress E = true ->
    (Qsum (advances_of l) + Qsum (map area (reported l)) <= area r)%Q /\
    (o = Done tt -> Qsum (advances_of l) + Qsum (map area (reported l)) == area r)%Q.
  Proof.
    induction 1 as [r phi|n r phi Hv Hdf|n r phi Hdf Hp|n r phi Hdf Hp Hs|n r phi l o Hv Hs Hz HN
      |n r phi l o Hv Hdf Hs Hz HP|n r phi A B l e Hdf Hp Hz HAB H1
      |n r phi A B l1 m l2 o Hdf Hp Hz HAB H1 H2 IH2 Ho
      |n r phi A B l1 m l2 l3 e Hdf Hp Hz HAB H1 H2 IH2 H3
      |n r phi A B l1 m l2 l3 m2 l4 o Hdf Hp Hz HAB H1 H2 IH2 H3 H4 IH4];
      intros Hr Hg; pose proof (area_nonneg _ Hr) as Ha.
    - cbn. split; [lra|discriminate].
    - cbn. split; [lra|discriminate].
    - unfold adv. rewrite Hg. cbn. split; [|intros _]; lra.
    - unfold adv. rewrite Hg. cbn [advances_of reported flat_map app map]. unfold Qsum. cbn [fold_right].
      setoid_replace (deltaRe r * (0 - 0))%Q with 0%Q by ring. split; [|intros _]; lra.
    - apply newton_logs in HN. destruct HN as (_ & -> & _ & _ & ->). unfold adv. rewrite Hg. cbn.
      split; [|intros _]; lra.
    - apply poly_logs in HP. destruct HP as (C & D & -> & _ & _ & C0 & C1).
      destruct C as [C|C].
      + rewrite (C0 C). cbn. split; [lra|]. intro Hd. rewrite (D Hd) in C. discriminate.
      + rewrite (C1 C). unfold adv. rewrite Hg. cbn. split; [|intros _]; lra.
    - logs. rewrite La, Lr. cbn. split; [lra|discriminate].
    - destruct (splits_geometry _ _ _ HAB Hr) as (PA & PB & SA & SB & D & AR & _).
      pose proof (area_nonneg _ PB).
      logs. rewrite !advances_app, !reported_app, La, Lr. cbn [app].
      destruct (IH2 PA Hg) as [I1 _]. split; [lra|congruence].
    - destruct (splits_geometry _ _ _ HAB Hr) as (PA & PB & SA & SB & D & AR & _).
      pose proof (area_nonneg _ PB).
      logs. rewrite !advances_app, !reported_app, La, Lr, La0, Lr0. cbn [app]. rewrite !app_nil_r.
      destruct (IH2 PA Hg) as [I1 _]. split; [lra|congruence].
    - destruct (splits_geometry _ _ _ HAB Hr) as (PA & PB & SA & SB & D & AR & _).
      logs. rewrite !advances_app, !reported_app, La, Lr, La0, Lr0. cbn [app].
      rewrite map_app, !Qsum_app.
      destruct (IH2 PA Hg) as [_ I1]. destruct (IH4 PB Hg) as [I3 I4]. specialize (I1 eq_refl).
      split; [lra|]. intro Hd. specialize (I4 Hd). lra.
  Qed.

  Lemma runs_no_progress v n r phi l o : runs E v n r phi l o -> e_progress E = false ->
    advances_of l = [].
  Proof.
    induction 1 as [r phi|n r phi Hv Hdf|n r phi Hdf Hp|n r phi Hdf Hp Hs|n r phi l o Hv Hs Hz HN
      |n r phi l o Hv Hdf Hs Hz HP|n r phi A B l e Hdf Hp Hz HAB H1
      |n r phi A B l1 m l2 o Hdf Hp Hz HAB H1 H2 IH2 Ho
      |n r phi A B l1 m l2 l3 e Hdf Hp Hz HAB H1 H2 IH2 H3
      |n r phi A B l1 m l2 l3 m2 l4 o Hdf Hp Hz HAB H1 H2 IH2 H3 H4 IH4];
      intro Hg; try reflexivity.
    - unfold adv. rewrite Hg. reflexivity.
    - unfold adv. rewrite Hg. reflexivity.
    - apply newton_logs in HN. destruct HN as (_ & _ & _ & _ & ->). unfold adv. rewrite Hg. reflexivity.
    - apply poly_logs in HP. destruct HP as (C & _ & _ & _ & _ & C0 & C1).
      destruct C as [C|C]; [auto|]. rewrite (C1 C). unfold adv. rewrite Hg. reflexivity.
    - logs. exact La.
    - logs. rewrite advances_app, La, (IH2 Hg). reflexivity.
    - logs. rewrite !advances_app, La, (IH2 Hg), La0. reflexivity.
    - logs. rewrite !advances_app, La, (IH2 Hg), La0, (IH4 Hg). reflexivity.
  Qed.

  (** ** C30 *)
  Lemma runs_no_higher_moments n r phi l o : runs E PolyV n r phi l o ->
    (forall k q s, 1 <= k -> snd (e_est E k q s) = Err NotImplementedError) ->
    (forall q p, ~ In (EvPoly q p) l) /\
    (o <> OutOfFuel -> e_has_df E = true ->
     (~ small r -> TWO_PI < phi -> phi < MAX_PHASE -> o = Raised NotImplementedError)%Q /\
     forall q m, In (EvMoment 0 q (Ok m)) l -> ~ small q ->
       (TWO_PI < re m -> re m < MAX_PHASE -> o = Raised NotImplementedError)%Q).
  Proof.
    remember PolyV as v eqn:Ev. intros H HE. revert Ev.
    induction H as [r phi|n r phi Hv Hdf|n r phi Hdf Hp|n r phi Hdf Hp Hs|n r phi l o Hv Hs Hz HN
      |n r phi l o Hv Hdf Hs Hz HP|n r phi A B l e Hdf Hp Hz HAB H1
      |n r phi A B l1 m l2 o Hdf Hp Hz HAB H1 H2 IH2 Ho
      |n r phi A B l1 m l2 l3 e Hdf Hp Hz HAB H1 H2 IH2 H3
      |n r phi A B l1 m l2 l3 m2 l4 o Hdf Hp Hz HAB H1 H2 IH2 H3 H4 IH4];
      intro Ev.
    - split; [intros q p []|]. tauto.
    - split; [intros q p []|]. congruence.
    - split.
      + intros q p [Hi|Hi]; [discriminate|]. apply in_adv in Hi. destruct Hi as [_ Hi]; discriminate.
      + intros _ _. split; [lra|]. intros q m [Hi|Hi]; [discriminate|]. apply in_adv in Hi.
        destruct Hi as [_ Hi]; discriminate.
    - split.
      + intros q p [Hi|[Hi|Hi]]; try discriminate. apply in_adv in Hi. destruct Hi as [_ Hi]; discriminate.
      + intros _ _. split; [tauto|]. intros q m [Hi|[Hi|Hi]]; try discriminate. apply in_adv in Hi.
        destruct Hi as [_ Hi]; discriminate.
    - congruence.
    - destruct HP as (l1 & ms & HM & K).
      assert (HL : ms = Err NotImplementedError /\ forall ev, In ev l1 ->
        (forall q p, ev <> EvPoly q p) /\ (forall q m, ev <> EvMoment 0 q m)).
      { assert (Hn : (1 <= Z.to_nat (round_half_even phi))%nat).
        { apply (Nat.le_trans _ (Z.to_nat 1)); [reflexivity|]. apply Z2Nat.inj_le; try lia.
          - rewrite Ev in Hz. destruct Hz as [Hz _]. unfold TWO_PI in Hz.
            change 0 with (round_half_even 0). apply round_half_even_mono. lra.
          - rewrite Ev in Hz. destruct Hz as [Hz _]. unfold TWO_PI in Hz.
            change 1 with (round_half_even (8 # 10)). apply round_half_even_mono. lra. }
        split.
        - inversion HM; subst; try lia.
          + match goal with H : est _ 1 _ _ _ |- _ => destruct H as (s & s' & zs & He & _) end.
            specialize (HE 1 r s ltac:(lia)). rewrite He in HE. cbn in HE. congruence.
          + match goal with H : est _ 1 _ _ _ |- _ => destruct H as (s & s' & zs & He & _) end.
            specialize (HE 1 r s ltac:(lia)). rewrite He in HE. cbn in HE. congruence.
          + match goal with H : est _ 1 _ _ _ |- _ => destruct H as (s & s' & zs & He & _) end.
            specialize (HE 1 r s ltac:(lia)). rewrite He in HE. cbn in HE. congruence.
        - intros ev Hi. eapply moms_in in Hi; [|exact HM].
          destruct Hi as [(j & mm & Hj & ->)|(z & -> & Hz')]; split; intros q p; try discriminate.
          intros [= -> _ _]. lia. }
      destruct HL as [-> HL]. destruct K as [-> ->]. split.
      + intros q p Hi. apply HL in Hi. destruct Hi as [Hi _]. apply (Hi q p). reflexivity.
      + intros _ _. auto.
    - split.
      + intros q p Hi. eapply est_in in Hi; [|exact H1]. destruct Hi as [Hi|(z & Hi & _)]; discriminate.
      + intros _ _. split.
        * intros _ P1 P2. exfalso. apply Hz. rewrite Ev. cbn. auto.
        * intros q m Hi. eapply est_in in Hi; [|exact H1]. destruct Hi as [Hi|(z & Hi & _)]; discriminate.
    - destruct (IH2 Ev) as [I1 I2]. split.
      + intros q p Hi. apply in_app_or in Hi. destruct Hi as [Hi|Hi]; [|apply (I1 q p Hi)].
        eapply est_in in Hi; [|exact H1]. destruct Hi as [Hi|(z & Hi & _)]; discriminate.
      + intros Ho' Hd. destruct (I2 Ho' Hd) as [J1 J2]. split.
        * intros _ P1 P2. exfalso. apply Hz. rewrite Ev. cbn. auto.
        * intros q m' Hi. apply in_app_or in Hi. destruct Hi as [Hi|Hi]; [|apply (J2 q m' Hi)].
          eapply est_in in Hi; [|exact H1]. destruct Hi as [Hi|(z & Hi & _)]; [|discriminate].
          injection Hi as -> ->. exact J1.
    - destruct (IH2 Ev) as [I1 I2]. split.
      + intros q p Hi. apply in_app_or in Hi. destruct Hi as [Hi|Hi].
        { eapply est_in in Hi; [|exact H1]. destruct Hi as [Hi|(z & Hi & _)]; discriminate. }
        apply in_app_or in Hi. destruct Hi as [Hi|Hi]; [apply (I1 q p Hi)|].
        eapply est_in in Hi; [|exact H3]. destruct Hi as [Hi|(z & Hi & _)]; discriminate.
      + intros Ho' Hd. destruct (I2 ltac:(discriminate) Hd) as [J1 J2]. split.
        * intros _ P1 P2. exfalso. apply Hz. rewrite Ev. cbn. auto.
        * intros q m' Hi Hs' P1 P2. apply in_app_or in Hi. destruct Hi as [Hi|Hi].
          { eapply est_in in Hi; [|exact H1]. destruct Hi as [Hi|(z & Hi & _)]; [|discriminate].
            injection Hi as -> ->. specialize (J1 Hs' P1 P2). discriminate. }
          apply in_app_or in Hi. destruct Hi as [Hi|Hi].
          { specialize (J2 q m' Hi Hs' P1 P2). discriminate. }
          eapply est_in in Hi; [|exact H3]. destruct Hi as [Hi|(z & Hi & _)]; discriminate.
    - destruct (IH2 Ev) as [I1 I2]. destruct (IH4 Ev) as [I3 I4]. split.
      + intros q p Hi. apply in_app_or in Hi. destruct Hi as [Hi|Hi].
        { eapply est_in in Hi; [|exact H1]. destruct Hi as [Hi|(z & Hi & _)]; discriminate. }
        apply in_app_or in Hi. destruct Hi as [Hi|Hi]; [apply (I1 q p Hi)|].
        apply in_app_or in Hi. destruct Hi as [Hi|Hi]; [|apply (I3 q p Hi)].
        eapply est_in in Hi; [|exact H3]. destruct Hi as [Hi|(z & Hi & _)]; discriminate.
      + intros Ho' Hd. destruct (I2 ltac:(discriminate) Hd) as [J1 J2].
        destruct (I4 Ho' Hd) as [J3 J4]. split.
        * intros _ P1 P2. exfalso. apply Hz. rewrite Ev. cbn. auto.
        * intros q m' Hi Hs' P1 P2. apply in_app_or in Hi. destruct Hi as [Hi|Hi].
          { eapply est_in in Hi; [|exact H1]. destruct Hi as [Hi|(z & Hi & _)]; [|discriminate].
            injection Hi as -> ->. specialize (J1 Hs' P1 P2). discriminate. }
          apply in_app_or in Hi. destruct Hi as [Hi|Hi].
          { specialize (J2 q m' Hi Hs' P1 P2). discriminate. }
          apply in_app_or in Hi. destruct Hi as [Hi|Hi].
          { eapply est_in in Hi; [|exact H3]. destruct Hi as [Hi|(z & Hi & _)]; [|discriminate].
            injection Hi as -> ->. exact (J3 Hs' P1 P2). }
          exact (J4 q m' Hi Hs' P1 P2).
  Qed.
End Facts.

(** ** Recursion depth does not change a finished run *)
Section Fuel.
  Context {S : Type}.
  Definition refines {A} (m1 m2 : @M S A) : Prop :=
    forall s s' l o, m1 s = (s', l, o) -> o <> OutOfFuel -> m2 s = (s', l, o).

  Lemma refines_refl {A} (m : @M S A) : refines m m.
  Proof. intros s s' l o H _. exact H. Qed.

  Lemma refines_bind {A B} (m1 m2 : @M S A) (k1 k2 : A -> @M S B) :
    refines m1 m2 -> (forall a, refines (k1 a) (k2 a)) -> refines (mbind m1 k1) (mbind m2 k2).
  Proof.
    intros Hm Hk s s' l o H Ho. apply mbind_inv in H.
    destruct H as [(e & H & ->)|[[H ->]|(s1 & l1 & a & l2 & H1 & H2 & ->)]].
    - unfold mbind. rewrite (Hm _ _ _ _ H) by discriminate. reflexivity.
    - contradiction.
    - unfold mbind. rewrite (Hm _ _ _ _ H1) by discriminate.
      rewrite (Hk _ _ _ _ _ H2 Ho). reflexivity.
  Qed.

  Variable E : env S.
  Lemma refines_simple self1 self2 r phi :
    (forall r phi, refines (self1 r phi) (self2 r phi)) ->
    refines (decide_simple E self1 r phi) (decide_simple E self2 r phi).
  Proof.
    intro H. unfold decide_simple.
    destruct (Qltb phi TWO_PI); [apply refines_refl|].
    destruct (_ && _); [apply refines_refl|].
    destruct (Qltb _ _); cbv zeta;
      (apply refines_bind; [apply refines_refl|intro p1]);
      (apply refines_bind; [apply H|intro u1]);
      (apply refines_bind; [apply refines_refl|intro u2]);
      (apply refines_bind; [apply refines_refl|intro p2]);
      (apply refines_bind; [apply H|intro u3]); apply refines_refl.
  Qed.

  Lemma decide_fuel v n : forall k r phi,
    refines (decideRefinement E v n r phi) (decideRefinement E v (n + k) r phi).
  Proof.
    induction n as [|n IH]; intros k r phi.
    - intros s s' l o H Ho. cbn in H. unfold out_of_fuel in H. congruence.
    - cbn [decideRefinement Nat.add]. destruct v.
      + apply refines_simple, IH.
      + unfold decide_newton. destruct (_ && _); [apply refines_refl|].
        destruct (_ && _); [apply refines_refl|]. apply refines_simple, IH.
      + unfold decide_poly. destruct (negb _); [apply refines_refl|].
        destruct (_ && _); [apply refines_refl|].
        destruct (_ && _); [apply refines_refl|]. apply refines_simple, IH.
  Qed.

  Lemma calcRoots_fuel v n m r : (n <= m)%nat -> refines (calcRoots E v n r) (calcRoots E v m r).
  Proof.
    intros Hnm s s' l o H Ho. unfold calcRoots in *.
    replace m with (n + (m - n))%nat by lia.
    revert H Ho. set (s0 := if e_dirty E s then _ else _). apply refines_bind; [apply refines_refl|].
    intro a. apply decide_fuel.
  Qed.
End Fuel.
