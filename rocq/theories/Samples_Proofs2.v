(** * What the line caches hold (C91) *)
From Coq Require Import Reals.
From Verif Require Import PyBase Cache_Proofs Sum_Model Sum_Spec Sum_Proofs Sum_Proofs2 Sum_Proofs3 Sum_Proofs6 Samples_Spec Samples_Proofs.
From Coq Require Import Lqa Lra Lia.
Open Scope nat_scope.

(** ** Sizes of dictionaries *)
Section Dict.
  Context {K V : Type} (eqb : K -> K -> bool).
  Lemma dset_grows k (v : V) d : List.length (dset eqb k v d) <= S (List.length d).
  Proof. induction d as [|[k' v'] d IH]; cbn; [lia|]. destruct (eqb k k'); cbn; lia. Qed.
  Lemma dset_same k (v w : V) d : dget eqb k d = Some w -> List.length (dset eqb k v d) = List.length d.
  Proof. induction d as [|[k' v'] d IH]; cbn; [discriminate|]. destruct (eqb k k'); cbn; [reflexivity|]. intro H. rewrite IH; auto. Qed.
End Dict.

Definition sizes {A} (c : lcache A) : nat := list_sum (map (fun e => List.length (snd e)) c).

Lemma sizes_dset {A} k (d : list ((Q * side) * entry A)) (c : lcache A) :
  sizes (dset okey_eqb k d c) + match dget okey_eqb k c with Some w => List.length w | None => 0 end = sizes c + List.length d.
Proof.
  unfold sizes, list_sum. induction c as [|[k' w] c IH]; cbn [dset dget map snd fold_right]; [cbn; lia|].
  destruct (okey_eqb k k'); cbn [map snd fold_right] in *; [lia|].
  destruct (dget okey_eqb k c); lia.
Qed.

Lemma store_sizes {A} level order s1 s2 (v : entry A) c : 
  List.length (storeCache level order s1 s2 v c) = List.length c /\ sizes (storeCache level order s1 s2 v c) <= sizes c + 2.
Proof.
  unfold storeCache. destruct (dget okey_eqb (level, order) c) as [d|] eqn:E; [|split; lia].
  split; [exact (dset_same _ _ _ _ _ E)|].
  pose proof (sizes_dset (level, order) (dset skey_eqb (s2, EndSide) v (dset skey_eqb (s1, StartSide) v d)) c) as H.
  rewrite E in H. pose proof (dset_grows skey_eqb (s1, StartSide) v d) as G1.
  pose proof (dset_grows skey_eqb (s2, EndSide) v (dset skey_eqb (s1, StartSide) v d)) as G2. lia.
Qed.

Lemma empty_sizes {A} key (c : lcache A) : dget okey_eqb key c = None ->
  List.length (dset okey_eqb key [] c) <= S (List.length c) /\ sizes (dset okey_eqb key [] c) = sizes c.
Proof.
  intro E. split; [apply dset_grows|]. pose proof (sizes_dset key [] c) as H. rewrite E in H. cbn in H. lia.
Qed.

(** ** One request *)
Section Request.
  Context {A : Type} (azero : A) (aadd : A -> A -> A) (aopp : A -> A).
  Variables (fz : cplx -> bool) (dphase : cplx -> cplx -> A) (large : A -> bool)
    (factor : nat -> A -> nat) (close : cplx -> cplx -> bool) (numPts : nat) (precision : Z * Z).
  Notation retrieve := (retrieveCached azero aadd aopp fz dphase large factor close numPts precision).
  Notation genPhi := (genPhiArr azero fz dphase large factor close numPts precision).

  Definition slice_of (v w : entry A) : Prop :=
    exists m, v = (firstn m (fst w), firstn m (snd w)) \/ v = (skipn m (fst w), skipn m (snd w)).

  Lemma retrieve_stores end_test coord point level fuel order t1 t2 c c' found phi :
    retrieve end_test coord point level fuel order t1 t2 c = LineOk c' found phi ->
    exists c0 s1 s2 v,
      (c0 = c \/ (dget okey_eqb (level, order) c = None /\ c0 = dset okey_eqb (level, order) [] c)) /\
      c' = storeCache level order s1 s2 v c0 /\
      ((exists a b, genPhi fuel order a b = Gen (fst v) (snd v) found) \/
       (exists t s w, cached c level order t s = Some w /\ slice_of v w)).
  Proof.
    intro R. unfold retrieveCached in R.
    set (s1 := if Qle_bool t1 t2 then t1 else t2) in *. set (s2 := if Qle_bool t1 t2 then t2 else t1) in *.
    destruct (dget okey_eqb (level, order) c) as [d|] eqn:E.
    2:{ destruct (genPhi fuel order (point s1) (point s2)) as [zs phis fd|e|] eqn:G; try discriminate.
        injection R as <- <- _. do 3 eexists. exists (zs, phis). split; [right; split; reflexivity|]. split; [reflexivity|].
        left. exists (point s1), (point s2). exact G. }
    assert (GEN : match genPhi fuel order (point s1) (point s2) with
        | Gen zs phis fd => LineOk (storeCache level order s1 s2 (zs, phis) c) fd
            (if Qltb t1 t2 then asum azero aadd phis else aopp (asum azero aadd phis))
        | GenErr e => LineErr e | GenLoops => LineLoops end = LineOk c' found phi ->
        exists c0 s1 s2 v,
      (c0 = c \/ (Some d = None /\ c0 = dset okey_eqb (level, order) [] c)) /\
      c' = storeCache level order s1 s2 v c0 /\
      ((exists a b, genPhi fuel order a b = Gen (fst v) (snd v) found) \/
       (exists t s w, cached c level order t s = Some w /\ slice_of v w))).
    { clear R. intro R. destruct (genPhi fuel order (point s1) (point s2)) as [zs phis fd|e|] eqn:G; try discriminate.
      injection R as <- <- _. do 3 eexists. exists (zs, phis). split; [left; reflexivity|]. split; [reflexivity|].
      left. exists (point s1), (point s2). exact G. }
    destruct (dget skey_eqb (s1, StartSide) d) as [w|] eqn:ES.
    { destruct (Nat.ltb _ _); [exact (GEN R)|]. destruct (last_index _ _) as [m|]; [|discriminate].
      injection R as <- _ _. do 3 eexists. exists (firstn (S m) (fst w), firstn (S m) (snd w)).
      split; [left; reflexivity|]. split; [reflexivity|]. right. exists s1, StartSide, w.
      split; [unfold cached; rewrite E; exact ES|]. exists (S m). left. reflexivity. }
    destruct (dget skey_eqb (s2, EndSide) d) as [w|] eqn:EE.
    { destruct (Nat.ltb _ _); [exact (GEN R)|]. destruct (first_index _ _) as [m|]; [|discriminate].
      injection R as <- _ _. do 3 eexists. exists (skipn m (fst w), skipn m (snd w)).
      split; [left; reflexivity|]. split; [reflexivity|]. right. exists s2, EndSide, w.
      split; [unfold cached; rewrite E; exact EE|]. exists m. right. reflexivity. }
    exact (GEN R).
  Qed.
End Request.

(** ** Histories *)
Definition all_entries {A} (P : entry A -> Prop) (c : lcache A) : Prop :=
  forall level order t s v, cached c level order t s = Some v -> P v.

Lemma all_store {A} (P : entry A -> Prop) level order s1 s2 v (c : lcache A) : P v -> all_entries P c ->
  all_entries P (storeCache level order s1 s2 v c).
Proof.
  intros Hv H l o t s w Hw. destruct (dget okey_eqb (level, order) c) as [d|] eqn:E.
  - rewrite cached_store in Hw by congruence.
    destruct (okey_eqb _ _); [|exact (H _ _ _ _ _ Hw)].
    destruct (skey_eqb (t, s) (s2, EndSide)); [injection Hw as <-; exact Hv|].
    destruct (skey_eqb (t, s) (s1, StartSide)); [injection Hw as <-; exact Hv|]. exact (H _ _ _ _ _ Hw).
  - unfold storeCache in Hw. rewrite E in Hw. exact (H _ _ _ _ _ Hw).
Qed.

Lemma all_empty {A} (P : entry A -> Prop) key (c : lcache A) : all_entries P c -> all_entries P (dset okey_eqb key [] c).
Proof.
  intros H l o t s v Hv. unfold cached in Hv. rewrite (dget_dset okey_eqb okey_t okey_s) in Hv.
  destruct (okey_eqb (l, o) key); [discriminate|]. apply (H l o t s v). exact Hv.
Qed.

Definition fits (n : nat) (delta : R) (v : entry R) : Prop :=
  sample_limit n delta (List.length (fst v)) /\ List.length (snd v) <= List.length (fst v).

Lemma limit_less n delta a b : a <= b -> sample_limit n delta b -> sample_limit n delta a.
Proof. intros H (k & K1 & K2). exists k. split; [exact K1|]. apply le_INR in H. lra. Qed.

Lemma slice_fits n delta (v w : entry R) : slice_of v w -> fits n delta w -> fits n delta v.
Proof.
  intros (m & [->| ->]) [F1 F2]; split; cbn [fst snd];
    try (apply (limit_less n delta _ (List.length (fst w))); [|exact F1]);
    rewrite ?firstn_length, ?skipn_length; lia.
Qed.

Definition small_state (n : nat) (delta : R) (k : nat) (st : sum_state R) : Prop :=
  all_entries (fits n delta) (horizontal st) /\ all_entries (fits n delta) (vertical st) /\
  stored_levels st <= k /\ stored_arrays st <= 2 * k.

Lemma stored_sizes {A} (st : sum_state A) : stored_arrays st = sizes (horizontal st) + sizes (vertical st).
Proof. unfold stored_arrays, sizes. rewrite map_app. apply list_sum_app. Qed.

Lemma request_fits q n delta end_test coord point level order t1 t2 c c' found phi : (0 < delta)%R -> 1 <= n ->
  rq_delta q = delta -> rq_numPts q = n ->
  retrieveCached 0%R Rplus Ropp (vanishes (rq_f q)) (phase_step (rq_f q)) (at_least (rq_delta q)) (refinement (rq_delta q))
    (nearer (rq_maxprec q)) (rq_numPts q) (rq_precision q) end_test coord point level (rq_fuel q) order t1 t2 c
  = LineOk c' found phi -> all_entries (fits n delta) c ->
  all_entries (fits n delta) c' /\ List.length c' <= S (List.length c) /\ sizes c' <= sizes c + 2.
Proof.
  intros HD Hn ED EN R H.
  destruct (retrieve_stores _ _ _ _ _ _ _ _ _ _ _ _ _ _ _ _ _ _ _ _ _ _ R) as (c0 & s1 & s2 & v & C0 & -> & V).
  assert (FV : fits n delta v).
  { destruct V as [(a & b & G)|(t & s & w & W & S)]; [|exact (slice_fits n delta v w S (H _ _ _ _ _ W))].
    unfold genPhiArr in G. destruct (Z.eqb_spec order 0) as [->|N]; [|discriminate].
    rewrite ED, EN in G.
    assert (G' : gen_phi (rq_f q) delta (rq_maxprec q) n (rq_precision q) (rq_fuel q) 0 a b = Gen (fst v) (snd v) found) by exact G.
    split; [exact (gen_phi_samples _ _ _ _ _ _ _ _ _ _ _ HD Hn G')|].
    destruct (gen_phi_result (rq_f q) delta (rq_maxprec q) n (rq_precision q) HD a b (rq_fuel q) _ _ _ Hn G') as (L & _). lia. }
  destruct (store_sizes level order s1 s2 v c0) as [S1 S2].
  destruct C0 as [->|[E ->]].
  - split; [apply all_store; assumption|]. split; lia.
  - destruct (empty_sizes (level, order) c E) as [E1 E2]. split; [apply all_store; [exact FV|apply all_empty, H]|]. split; lia.
Qed.

Lemma served_small h delta n : (0 < delta)%R -> 1 <= n -> same_settings delta n h -> small_state n delta (List.length h) (served h).
Proof.
  intros HD Hn. unfold served. induction h as [|q h IH] using rev_ind; intro HS.
  { split; [intros ? ? ? ? ? E; discriminate|]. split; [intros ? ? ? ? ? E; discriminate|]. split; cbn; lia. }
  rewrite fold_left_app, app_length. cbn [fold_left List.length].
  destruct (IH (fun x Hx => HS x (in_or_app _ _ _ (or_introl Hx)))) as (I1 & I2 & I3 & I4). clear IH.
  destruct (HS q) as [ED EN]; [apply in_or_app; right; left; reflexivity|].
  set (st := fold_left serve h fresh_sum) in *.
  assert (KEEP : small_state n delta (List.length h + 1) st) by (split; [exact I1|]; split; [exact I2|]; split; lia).
  unfold serve, sum_line, sumLine. unfold stored_levels in I3. rewrite stored_sizes in I4.
  destruct (Qeq_bool (im (rq_start q)) (im (rq_end q))).
  { destruct (retrieveCached _ _ _ _ _ _ _ _ _ _ _ _ _ _ _ _ _ _ _) as [c found phi|e|] eqn:R;
      cbn [fst]; [|exact KEEP|exact KEEP].
    destruct (request_fits q n delta _ _ _ _ _ _ _ _ _ _ _ HD Hn ED EN R I1) as (J1 & J2 & J3).
    split; [exact J1|]. split; [exact I2|]. unfold stored_levels. rewrite stored_sizes. cbn [horizontal vertical]. lia. }
  destruct (Qeq_bool (re (rq_start q)) (re (rq_end q))); [|exact KEEP].
  destruct (retrieveCached _ _ _ _ _ _ _ _ _ _ _ _ _ _ _ _ _ _ _) as [c found phi|e|] eqn:R;
    cbn [fst]; [|exact KEEP|exact KEEP].
  destruct (request_fits q n delta _ _ _ _ _ _ _ _ _ _ _ HD Hn ED EN R I2) as (J1 & J2 & J3).
  split; [exact I1|]. split; [exact J1|]. unfold stored_levels. rewrite stored_sizes. cbn [horizontal vertical]. lia.
Qed.
