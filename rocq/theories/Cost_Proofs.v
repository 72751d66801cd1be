From Coq Require Import Reals Qreals.
From Verif Require Import PyBase Rounding_Model Rounding_Proofs Poly_Model Refine_Model Refine_Spec
  Refine_Proofs Refine_Proofs2 Refine_Proofs3 Zeros_Spec Zeros_Proofs Cost_Spec.
Open Scope Z_scope.

Lemma requests_app a b : requests (a ++ b) = requests a ++ requests b.
Proof. apply flat_map_app. Qed.
Lemma winding_app a b : winding_requests (a ++ b) = (winding_requests a + winding_requests b)%nat.
Proof. unfold winding_requests. rewrite requests_app, filter_app, app_length. reflexivity. Qed.
Lemma moment_app a b : moment_requests (a ++ b) = (moment_requests a + moment_requests b)%nat.
Proof. unfold moment_requests. rewrite requests_app, filter_app, app_length. reflexivity. Qed.

Lemma requests_roots {A} (f : A -> root) l : requests (map (fun z => EvRoot (f z)) l) = [].
Proof. induction l as [|a l IH]; [reflexivity|exact IH]. Qed.

Lemma quiet l : requests l = [] -> winding_requests l = 0%nat /\ moment_requests l = 0%nat.
Proof. unfold winding_requests, moment_requests. intros ->. split; reflexivity. Qed.

Section Cost.
  Context {S : Type} (E : env S) (zeros : list point).
  Notation small r := (sub_tolerance (e_precision E) r).

  Lemma requests_adv a : requests (adv E a) = [].
  Proof. unfold adv. destruct (e_progress E); reflexivity. Qed.

  Lemma requests_est k r l m : est E k r l m -> requests l = [(k, r)].
  Proof.
    intros (s & s' & zs & _ & ->). rewrite requests_app, (requests_roots (fun z => (z, 0))). reflexivity.
  Qed.

  Lemma est_costs k r l m : est E k r l m ->
    winding_requests l = (if (k =? 0)%Z then 1 else 0)%nat /\
    moment_requests l = (if (k =? 0)%Z then 0 else 1)%nat.
  Proof.
    intro H. unfold winding_requests, moment_requests. rewrite (requests_est _ _ _ _ H).
    cbn [filter]. unfold order_zero. cbn [fst]. destruct (k =? 0); split; reflexivity.
  Qed.

  Lemma moms_costs r k n l m : moms E r k n l m -> 0 < k ->
    winding_requests l = 0%nat /\ (moment_requests l <= n)%nat.
  Proof.
    induction 1 as [k|k n l e H|k n l1 m l2 ms H _ IH|k n l1 m l2 e H _ IH]; intro Hk.
    - split; [reflexivity|cbn; lia].
    - destruct (est_costs _ _ _ _ H) as [-> ->]. rewrite (proj2 (Z.eqb_neq k 0)) by lia. lia.
    - destruct (est_costs _ _ _ _ H) as [W M]. rewrite (proj2 (Z.eqb_neq k 0)) in W, M by lia.
      rewrite winding_app, moment_app, W, M. destruct IH as [W' M']; lia.
    - destruct (est_costs _ _ _ _ H) as [W M]. rewrite (proj2 (Z.eqb_neq k 0)) in W, M by lia.
      rewrite winding_app, moment_app, W, M. destruct IH as [W' M']; lia.
  Qed.

  Lemma moms_all r k n l ms : moms E r k n l (Ok ms) -> 0 < k -> moment_requests l = n.
  Proof.
    remember (Ok ms) as x eqn:Ex. intro H. revert ms Ex.
    induction H as [k|k n l e H|k n l1 m l2 ms H _ IH|k n l1 m l2 e H _ IH]; intros ms' Ex Hk;
      try discriminate.
    - reflexivity.
    - destruct (est_costs _ _ _ _ H) as [W M]. rewrite (proj2 (Z.eqb_neq k 0)) in W, M by lia.
      rewrite moment_app, M, (IH ms eq_refl) by lia. lia.
  Qed.

  Lemma newton_costs r phi l o : newton_result E r phi l o -> requests l = [].
  Proof.
    intros (rs & x & -> & _). change (EvNewton r phi :: ?l) with ([EvNewton r phi] ++ l).
    rewrite !requests_app, (requests_roots (fun z => z)), requests_adv. reflexivity.
  Qed.

  Lemma poly_costs r phi l o : poly_result E r phi l o ->
    winding_requests l = 0%nat /\ (moment_requests l <= Z.to_nat (round_half_even phi))%nat.
  Proof.
    intros (l1 & ms & H & K). apply moms_costs in H; [|lia]. destruct H as [W M].
    destruct ms as [ms|e].
    - destruct (e_polyroots E _) as [rts|e]; destruct K as [K1 K2].
      + subst l. change (EvPoly r phi :: ?l) with ([EvPoly r phi] ++ l).
        rewrite !winding_app, !moment_app, W.
        destruct (quiet [EvPoly r phi] eq_refl) as [-> ->].
        destruct (quiet (map EvRoot (group_roots (e_precision E) rts)) (requests_roots (fun z => z) _)) as [-> ->].
        destruct (quiet (adv E (area r)) (requests_adv _)) as [-> ->]. lia.
      + subst l. auto.
    - destruct K as [-> _]. auto.
  Qed.

  Lemma runs_cost v n r phi l o : runs E v n r phi l o ->
    forall a b, below E r a b -> proper r -> good_estimate phi (count zeros r) -> good_run zeros l ->
      (winding_requests l <= 2 * count zeros r * (a + b))%nat /\
      (moment_requests l <= count zeros r)%nat.
  Proof.
    induction 1 as [r phi|n r phi Hv Hdf|n r phi Hdf Hp|n r phi Hdf Hp Hs|n r phi l o Hv Hs Hz HN
      |n r phi l o Hv Hdf Hs Hz HP|n r phi A B l e Hdf Hp Hz HAB H1
      |n r phi A B l1 m l2 o Hdf Hp Hz HAB H1 H2 IH2 Ho
      |n r phi A B l1 m l2 l3 e Hdf Hp Hz HAB H1 H2 IH2 H3
      |n r phi A B l1 m l2 l3 m2 l4 o Hdf Hp Hz HAB H1 H2 IH2 H3 H4 IH4];
      intros a b Hb Hr Hg Hgr.
    - destruct (quiet [] eq_refl) as [-> ->]. lia.
    - destruct (quiet [] eq_refl) as [-> ->]. lia.
    - destruct (quiet (EvDiscard r phi :: adv E (area r))) as [-> ->]; [|lia].
      exact (requests_adv (area r)).
    - match goal with |- context [winding_requests ?x] => destruct (quiet x) as [-> ->]; [|lia] end.
      exact (requests_adv _).
    - destruct (quiet l (newton_costs _ _ _ _ HN)) as [-> ->]. lia.
    - destruct (poly_costs _ _ _ _ HP) as [W M]. rewrite W. split; [lia|].
      subst v. cbn in Hz. destruct (good_nonneg_turn _ _ Hg) as [_ R]; [Lqa.lra|].
      rewrite R, Nat2Z.id in M. exact M.
    - destruct (good_est E zeros _ _ _ H1 Hgr) as (_ & m' & C & _). discriminate.
    - apply good_app in Hgr. destruct Hgr as [G1 G2].
      destruct (splits_geometry E _ _ _ HAB Hr) as (PA & PB & SA & SB & _).
      destruct (good_est E zeros _ _ _ H1 G1) as (AA & m' & [= <-] & GA).
      destruct (good_nonneg_turn _ _ Hg Hp) as [Hc _].
      pose proof (count_split E zeros r A B HAB Hr AA) as HC.
      destruct (est_costs _ _ _ _ H1) as [W1 M1]. cbn [Z.eqb] in W1, M1.
      rewrite winding_app, moment_app, W1, M1.
      destruct (splits_below E _ _ _ _ _ HAB Hb) as [(a' & -> & HA & HB)|(b' & -> & HA & HB)];
        destruct (IH2 _ _ HA PA GA G2) as [W2 M2]; clear - Hc HC W2 M2; split; nia.
    - apply good_app in Hgr. destruct Hgr as [_ G]. apply good_app in G. destruct G as [_ G].
      destruct (good_est E zeros _ _ _ H3 G) as (_ & m' & C & _). discriminate.
    - apply good_app in Hgr. destruct Hgr as [G1 G]. apply good_app in G. destruct G as [G2 G].
      apply good_app in G. destruct G as [G3 G4].
      destruct (splits_geometry E _ _ _ HAB Hr) as (PA & PB & SA & SB & _).
      destruct (good_est E zeros _ _ _ H1 G1) as (AA & m' & [= <-] & GA).
      destruct (good_est E zeros _ _ _ H3 G3) as (AB & m' & [= <-] & GB).
      destruct (good_nonneg_turn _ _ Hg Hp) as [Hc _].
      pose proof (count_split E zeros r A B HAB Hr AA) as HC.
      destruct (est_costs _ _ _ _ H1) as [W1 M1]. cbn [Z.eqb] in W1, M1.
      destruct (est_costs _ _ _ _ H3) as [W3 M3]. cbn [Z.eqb] in W3, M3.
      rewrite !winding_app, !moment_app, W1, M1, W3, M3.
      destruct (splits_below E _ _ _ _ _ HAB Hb) as [(a' & -> & HA & HB)|(b' & -> & HA & HB)];
        destruct (IH2 _ _ HA PA GA G2) as [W2 M2]; destruct (IH4 _ _ HB PB GB G4) as [W4 M4];
        clear - Hc HC W2 M2 W4 M4; split; nia.
  Qed.

  (** Every variant; the only hypothesis about the estimates is [good_run]. *)
  Lemma search_cost v fuel r s a b s' l o :
    enough_halvings (x2 r - x1 r) (pow10 (- fst (e_precision E))) a ->
    enough_halvings (y2 r - y1 r) (pow10 (- snd (e_precision E))) b ->
    proper r -> calcRoots E v fuel r s = (s', l, o) -> good_run zeros l ->
    (winding_requests l <= 1 + 2 * count zeros r * (a + b))%nat /\
    (moment_requests l <= count zeros r)%nat.
  Proof.
    intros Ha Hb Hr H Hg. apply calcRoots_runs in H.
    destruct H as [(e & H & ->)|(m & l1 & l2 & H1 & H2 & ->)].
    { destruct (good_est E zeros _ _ _ H Hg) as (_ & m' & C & _). discriminate. }
    pose proof (good_app zeros _ _ Hg) as [G1 G2].
    destruct (good_est E zeros _ _ _ H1 G1) as (_ & m' & [= <-] & GA).
    destruct (runs_cost _ _ _ _ _ _ H2 a b (conj Ha Hb) Hr GA G2) as [W M].
    destruct (est_costs _ _ _ _ H1) as [W1 M1]. cbn [Z.eqb] in W1, M1.
    rewrite winding_app, moment_app, W1, M1. lia.
  Qed.

  (** Only the polynomial algorithm asks for moments of positive order. *)
  Lemma runs_simple_moments v n r phi l o : runs E v n r phi l o -> v <> PolyV -> moment_requests l = 0%nat.
  Proof.
    induction 1 as [r phi|n r phi Hv Hdf|n r phi Hdf Hp|n r phi Hdf Hp Hs|n r phi l o Hv Hs Hz HN
      |n r phi l o Hv Hdf Hs Hz HP|n r phi A B l e Hdf Hp Hz HAB H1
      |n r phi A B l1 m l2 o Hdf Hp Hz HAB H1 H2 IH2 Ho
      |n r phi A B l1 m l2 l3 e Hdf Hp Hz HAB H1 H2 IH2 H3
      |n r phi A B l1 m l2 l3 m2 l4 o Hdf Hp Hz HAB H1 H2 IH2 H3 H4 IH4]; intro Hn; try contradiction;
      try reflexivity.
    - destruct (quiet (EvDiscard r phi :: adv E (area r)) (requests_adv (area r))) as [_ ->]. reflexivity.
    - match goal with |- moment_requests ?x = _ => destruct (quiet x) as [_ ->]; [|reflexivity] end.
      exact (requests_adv _).
    - destruct (quiet l (newton_costs _ _ _ _ HN)) as [_ ->]. reflexivity.
    - destruct (est_costs _ _ _ _ H1) as [_ ->]. reflexivity.
    - destruct (est_costs _ _ _ _ H1) as [_ M]. rewrite moment_app, M, IH2 by exact Hn. reflexivity.
    - destruct (est_costs _ _ _ _ H1) as [_ M]. destruct (est_costs _ _ _ _ H3) as [_ M3].
      rewrite !moment_app, M, M3, IH2 by exact Hn. reflexivity.
    - destruct (est_costs _ _ _ _ H1) as [_ M]. destruct (est_costs _ _ _ _ H3) as [_ M3].
      rewrite !moment_app, M, M3, IH2, IH4 by exact Hn. reflexivity.
  Qed.

  Lemma search_moments v fuel r s s' l o :
    v <> PolyV -> calcRoots E v fuel r s = (s', l, o) -> moment_requests l = 0%nat.
  Proof.
    intros Hv H. apply calcRoots_runs in H.
    destruct H as [(e & H & ->)|(m & l1 & l2 & H1 & H2 & ->)].
    - destruct (est_costs _ _ _ _ H) as [_ ->]. reflexivity.
    - destruct (est_costs _ _ _ _ H1) as [_ M]. rewrite moment_app, M.
      rewrite (runs_simple_moments _ _ _ _ _ _ H2 Hv). reflexivity.
  Qed.

  Definition still (w e : Q) (a : nat) : Prop :=
    forall k, (k < a)%nat -> (inject_Z (2 ^ Z.of_nat k) * e <= w)%Q.
  Definition above (r : rect) (a b : nat) : Prop :=
    still (x2 r - x1 r) (pow10 (- fst (e_precision E))) a /\
    still (y2 r - y1 r) (pow10 (- snd (e_precision E))) b.

  Lemma still_half (w w' e : Q) a : (w' == w / 2)%Q -> still w e a -> still w' e (pred a).
  Proof.
    intros Hw H k Hk. specialize (H (Datatypes.S k) ltac:(lia)). rewrite two_S in H.
    rewrite Hw. apply Qle_shift_div_l; [reflexivity|]. Lqa.lra.
  Qed.

  Lemma still_eq (w w' e : Q) a : (w' == w)%Q -> still w e a -> still w' e a.
  Proof. intros Hw H k Hk. rewrite Hw. apply H, Hk. Qed.

  Lemma splits_above r A B a b : splits E r A B -> above r a b ->
    (above A (pred a) b /\ above B (pred a) b) \/ (above A a (pred b) /\ above B a (pred b)).
  Proof.
    intros [_ [(_ & -> & ->)|(_ & -> & ->)]] [Ha Hb]; [left|right]; unfold above; cbn [x1 x2 y1 y2];
      repeat apply conj; try assumption; eapply still_half; try eassumption; field.
  Qed.

  Lemma small_above r a b : small r -> above r a b -> a = 0%nat /\ b = 0%nat.
  Proof.
    intros [H1 H2] [Ha Hb]. split.
    - destruct a as [|a]; [reflexivity|]. specialize (Ha 0%nat ltac:(lia)).
      change (inject_Z (2 ^ Z.of_nat 0)) with 1%Q in Ha. exfalso. Lqa.lra.
    - destruct b as [|b]; [reflexivity|]. specialize (Hb 0%nat ltac:(lia)).
      change (inject_Z (2 ^ Z.of_nat 0)) with 1%Q in Hb. exfalso. Lqa.lra.
  Qed.

  Lemma runs_effort n r phi l o : runs E Simple n r phi l o ->
    forall a b, above r a b -> proper r -> good_estimate phi (count zeros r) -> good_run zeros l ->
      o = Done tt -> (1 <= count zeros r)%nat -> (2 * (a + b) <= winding_requests l)%nat.
  Proof.
    remember Simple as v eqn:Ev. intro H. revert Ev.
    induction H as [r phi|n r phi Hv Hdf|n r phi Hdf Hp|n r phi Hdf Hp Hs|n r phi l o Hv Hs Hz HN
      |n r phi l o Hv Hdf Hs Hz HP|n r phi A B l e Hdf Hp Hz HAB H1
      |n r phi A B l1 m l2 o Hdf Hp Hz HAB H1 H2 IH2 Ho
      |n r phi A B l1 m l2 l3 e Hdf Hp Hz HAB H1 H2 IH2 H3
      |n r phi A B l1 m l2 l3 m2 l4 o Hdf Hp Hz HAB H1 H2 IH2 H3 H4 IH4];
      intros Ev a b Hb Hr Hg Hgr Hd Hc; try congruence.
    - pose proof (good_empty _ _ Hg Hp). lia.
    - destruct (small_above _ _ _ Hs Hb) as [-> ->]. lia.
    - apply good_app in Hgr. destruct Hgr as [G1 G]. apply good_app in G. destruct G as [G2 G].
      apply good_app in G. destruct G as [G3 G4].
      destruct (splits_geometry E _ _ _ HAB Hr) as (PA & PB & SA & SB & _).
      destruct (good_est E zeros _ _ _ H1 G1) as (AA & m' & [= <-] & GA).
      destruct (good_est E zeros _ _ _ H3 G3) as (AB & m' & [= <-] & GB).
      pose proof (count_split E zeros r A B HAB Hr AA) as HC.
      destruct (est_costs _ _ _ _ H1) as [W1 M1]. cbn [Z.eqb] in W1, M1.
      destruct (est_costs _ _ _ _ H3) as [W3 M3]. cbn [Z.eqb] in W3, M3.
      rewrite !winding_app, W1, W3.
      assert (K : (1 <= count zeros A)%nat \/ (1 <= count zeros B)%nat) by (clear - HC Hc; lia).
      destruct (splits_above _ _ _ _ _ HAB Hb) as [(HA & HB)|(HA & HB)]; destruct K as [K|K];
        try (pose proof (IH2 Ev _ _ HA PA GA G2 eq_refl K) as L; clear - L; lia);
        pose proof (IH4 Ev _ _ HB PB GB G4 Hd K) as L; clear - L; lia.
  Qed.

  Lemma search_effort fuel r s a b s' l :
    (forall k, (k < a)%nat -> ~ enough_halvings (x2 r - x1 r) (pow10 (- fst (e_precision E))) k) ->
    (forall k, (k < b)%nat -> ~ enough_halvings (y2 r - y1 r) (pow10 (- snd (e_precision E))) k) ->
    proper r -> calcRoots E Simple fuel r s = (s', l, Done tt) -> good_run zeros l ->
    (1 <= count zeros r)%nat ->
    (1 + 2 * (a + b) <= winding_requests l)%nat.
  Proof.
    intros Ha Hb Hr H Hg Hc. apply calcRoots_runs in H.
    destruct H as [(e & H & C)|(m & l1 & l2 & H1 & H2 & ->)]; [discriminate|].
    pose proof (good_app zeros _ _ Hg) as [G1 G2].
    destruct (good_est E zeros _ _ _ H1 G1) as (_ & m' & [= <-] & GA).
    assert (AB : above r a b).
    { split; intros k Hk; [specialize (Ha k Hk)|specialize (Hb k Hk)];
        unfold enough_halvings in *; apply Qnot_lt_le; assumption. }
    pose proof (runs_effort _ _ _ _ _ H2 a b AB Hr GA G2 eq_refl Hc) as L.
    destruct (est_costs _ _ _ _ H1) as [W1 M1]. cbn [Z.eqb] in W1.
    rewrite winding_app, W1. lia.
  Qed.

  (** One simple zero: the cost is known exactly. *)
  Lemma search_exact fuel r s a b s' l :
    (forall k, enough_halvings (x2 r - x1 r) (pow10 (- fst (e_precision E))) k <-> (a <= k)%nat) ->
    (forall k, enough_halvings (y2 r - y1 r) (pow10 (- snd (e_precision E))) k <-> (b <= k)%nat) ->
    proper r -> calcRoots E Simple fuel r s = (s', l, Done tt) -> good_run zeros l ->
    count zeros r = 1%nat ->
    winding_requests l = (1 + 2 * (a + b))%nat.
  Proof.
    intros Ha Hb Hr H Hg Hc.
    destruct (search_cost Simple fuel r s a b s' l (Done tt)) as [U _]; try assumption;
      [apply Ha; lia|apply Hb; lia|].
    assert (L : (1 + 2 * (a + b) <= winding_requests l)%nat).
    { apply (search_effort fuel r s a b s' l); try assumption; [| |lia].
      - intros k Hk C. apply Ha in C. lia.
      - intros k Hk C. apply Hb in C. lia. }
    rewrite Hc in U. lia.
  Qed.

  (** Without zeros one estimate settles the matter. *)
  Lemma search_empty v fuel r s s' l :
    proper r -> calcRoots E v fuel r s = (s', l, Done tt) -> good_run zeros l ->
    count zeros r = 0%nat -> winding_requests l = 1%nat /\ moment_requests l = 0%nat.
  Proof.
    intros Hr H Hg Hc.
    destruct (halvings_exist (x2 r - x1 r) _ (pow10_pos (- fst (e_precision E)))) as [a Ha].
    destruct (halvings_exist (y2 r - y1 r) _ (pow10_pos (- snd (e_precision E)))) as [b Hb].
    destruct (search_cost v fuel r s a b s' l (Done tt) Ha Hb Hr H Hg) as [W M].
    rewrite Hc in W, M. split; [|lia].
    apply calcRoots_runs in H. destruct H as [(e & H & C)|(m & l1 & l2 & H1 & H2 & ->)]; [discriminate|].
    destruct (est_costs _ _ _ _ H1) as [W1 M1]. cbn [Z.eqb] in W1.
    rewrite winding_app, W1 in *. lia.
  Qed.
End Cost.
