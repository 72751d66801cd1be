(** * Proofs about the summation estimator: sample generation *)
From Verif Require Import PyBase Sum_Model Sum_Spec.
Open Scope Z_scope.

(** ** The shifting loop (C39) *)
Lemma shifted_S s m zs : shifted s m (translate s zs) = shifted s (S m) zs.
Proof.
  unfold shifted. induction m as [|m IHm]; [reflexivity|].
  change (translate s (Nat.iter m (translate s) (translate s zs)) = translate s (Nat.iter (S m) (translate s) zs)).
  rewrite IHm. reflexivity.
Qed.

Lemma shift_loop_sound fz s : forall fuel zs out found,
  shift_loop fz s fuel zs = Some (out, found) ->
  exists n, out = shifted s n zs /\ filter fz out = [] /\
    (forall m, (m < n)%nat -> filter fz (shifted s m zs) <> []) /\
    found = flat_map (fun m => filter fz (shifted s m zs)) (seq 0 n).
Proof.
  induction fuel as [|fuel IH]; intros zs out found H; [discriminate|].
  cbn [shift_loop] in H. destruct (filter fz zs) as [|x l] eqn:E.
  - injection H as <- <-. exists 0%nat. repeat split; try assumption; try lia.
  - destruct (shift_loop fz s fuel (translate s zs)) as [[z f]|] eqn:L; [|discriminate].
    injection H as <- <-. destruct (IH _ _ _ L) as (n & H1 & H2 & H3 & H4).
    assert (SH : forall m, shifted s m (translate s zs) = shifted s (S m) zs).
    { intro m. apply shifted_S. }
    exists (S n). rewrite <- SH. repeat split; try assumption.
    + intros [|m] Hm; [cbn; rewrite E; discriminate|]. rewrite <- SH. apply H3. lia.
    + cbn [seq flat_map]. change (shifted s 0 zs) with zs. rewrite E, H4.
      rewrite <- seq_shift, flat_map_concat_map, flat_map_concat_map, map_map.
      cbn [app]. f_equal. f_equal. f_equal. apply map_ext. intro m. rewrite SH. reflexivity.
Qed.

Lemma shift_loop_complete fz s : forall n zs,
  filter fz (shifted s n zs) = [] -> shift_loop fz s (S n) zs <> None.
Proof.
  induction n as [|n IH]; intros zs H.
  - cbn in *. rewrite H. discriminate.
  - cbn [shift_loop]. destruct (filter fz zs) as [|x l]; [discriminate|].
    assert (SH : shifted s n (translate s zs) = shifted s (S n) zs).
    { apply shifted_S. }
    specialize (IH (translate s zs)). rewrite SH in IH. specialize (IH H).
    cbn [shift_loop] in IH.
    destruct (filter fz (translate s zs)); [discriminate|].
    destruct (shift_loop fz s n (translate s (translate s zs))) as [[? ?]|]; [discriminate|congruence].
Qed.

Lemma shift_loop_mono fz s : forall fuel fuel' zs r, (fuel <= fuel')%nat ->
  shift_loop fz s fuel zs = Some r -> shift_loop fz s fuel' zs = Some r.
Proof.
  induction fuel as [|fuel IH]; intros [|fuel'] zs r L H; try discriminate; [lia|].
  cbn [shift_loop] in *. destruct (filter fz zs); [exact H|].
  destruct (shift_loop fz s fuel (translate s zs)) as [[a b]|] eqn:E; [|discriminate].
  rewrite (IH fuel' _ _ ltac:(lia) E). exact H.
Qed.

Lemma shift_loop_terminates fz s zs :
  (exists fuel r, shift_loop fz s fuel zs = Some r) <-> (exists n, filter fz (shifted s n zs) = []).
Proof.
  split.
  - intros (fuel & [out found] & H). destruct (shift_loop_sound _ _ _ _ _ _ H) as (n & -> & H2 & _).
    exists n. exact H2.
  - intros [n H]. exists (S n). apply shift_loop_complete in H.
    destruct (shift_loop fz s (S n) zs) as [r|]; [exists r; reflexivity|congruence].
Qed.

Lemma shifted_length s n zs : List.length (shifted s n zs) = List.length zs.
Proof.
  unfold shifted. induction n as [|n IH]; [reflexivity|]. cbn. unfold translate at 1. rewrite map_length. exact IH.
Qed.

Lemma shifted_points s n zs : forall i d, (i < List.length zs)%nat ->
  ceq (nth i (shifted s n zs) d)
      (re (nth i zs d) + inject_Z (Z.of_nat n) * re s, im (nth i zs d) + inject_Z (Z.of_nat n) * im s)%Q.
Proof.
  induction n as [|n IH]; intros i d Hi.
  - cbn. split; cbn; ring.
  - specialize (IH i d Hi).
    change (shifted s (S n) zs) with (translate s (shifted s n zs)).
    unfold translate. set (g := fun z : cplx => (re z + re s, im z + im s)%Q).
    rewrite (nth_indep _ d (g d)) by (rewrite map_length, shifted_length; exact Hi).
    rewrite map_nth. unfold g. destruct IH as [I1 I2].
    unfold re, im in *. cbn [fst snd] in *. rewrite Nat2Z.inj_succ. unfold Z.succ. rewrite inject_Z_plus.
    split; unfold re, im in *; cbn [fst snd] in *; [rewrite I1|rewrite I2]; ring.
Qed.

Lemma genFuncArr_mono fz prec fuel fuel' a b n r : (fuel <= fuel')%nat ->
  genFuncArr fz prec fuel a b n = Some r -> genFuncArr fz prec fuel' a b n = Some r.
Proof. apply shift_loop_mono. Qed.

Lemma linspaceC_length a b n : List.length (linspaceC a b n) = n.
Proof.
  destruct n as [|[|m]]; try reflexivity. cbn. rewrite app_length, map_length, seq_length. cbn. lia.
Qed.

Lemma genFuncArr_length fz prec fuel a b n zs found :
  genFuncArr fz prec fuel a b n = Some (zs, found) -> List.length zs = n.
Proof.
  intro H. destruct (shift_loop_sound _ _ _ _ _ _ H) as (m & -> & _).
  rewrite shifted_length. apply linspaceC_length.
Qed.

(** No zero reported: the array is the unshifted one. *)
Lemma genFuncArr_unshifted fz prec fuel a b n zs :
  genFuncArr fz prec fuel a b n = Some (zs, []) -> zs = linspaceC a b n /\ filter fz zs = [].
Proof.
  intro H. destruct (shift_loop_sound _ _ _ _ _ _ H) as (m & -> & H2 & H3 & H4).
  destruct m as [|m]; [split; [reflexivity|exact H2]|].
  exfalso. cbn [seq flat_map] in H4. symmetry in H4. apply app_eq_nil in H4 as [H4 _].
  apply (H3 0%nat); [lia|exact H4].
Qed.

(** ** Increments *)
Lemma increments_length {A} (d : cplx -> cplx -> A) zs : List.length (increments d zs) = pred (List.length zs).
Proof.
  induction zs as [|z zs IH]; [reflexivity|]. destruct zs as [|z' zs]; [reflexivity|].
  change (increments d (z :: z' :: zs)) with (d z z' :: increments d (z' :: zs)).
  cbn [List.length]. rewrite IH. reflexivity.
Qed.

Lemma increments_join {A} (d : cplx -> cplx -> A) l x l' :
  increments d (l ++ x :: l') = increments d (l ++ [x]) ++ increments d (x :: l').
Proof.
  induction l as [|z l IH]; [reflexivity|].
  destruct l as [|z' l].
  - reflexivity.
  - change (increments d ((z :: z' :: l) ++ x :: l')) with (d z z' :: increments d ((z' :: l) ++ x :: l')).
    change (increments d ((z :: z' :: l) ++ [x])) with (d z z' :: increments d ((z' :: l) ++ [x])).
    rewrite IH. reflexivity.
Qed.

Lemma first_index_some {A} (p : A -> bool) l : forall k, first_index p l = Some k ->
  (k < List.length l)%nat /\ forall d, p (nth k l d) = true.
Proof.
  induction l as [|a l IH]; intros k H; [discriminate|]. cbn in H.
  destruct (p a) eqn:E.
  - injection H as <-. cbn. split; [lia|auto].
  - destruct (first_index p l) as [j|]; [|discriminate]. injection H as <-.
    destruct (IH j eq_refl) as [I1 I2]. cbn. split; [lia|exact I2].
Qed.

Lemma first_index_none {A} (p : A -> bool) l : first_index p l = None <-> forall a, In a l -> p a = false.
Proof.
  induction l as [|a l IH]; cbn; [split; [intros _ ? []|reflexivity]|].
  destruct (p a) eqn:E.
  - split; [discriminate|]. intro H. rewrite (H a) in E; [discriminate|auto].
  - destruct (first_index p l) as [j|].
    + split; [discriminate|]. intro H. exfalso. assert (Some j = None); [|discriminate]. apply IH. auto.
    + split; [|reflexivity]. intros _ b [<-|Hb]; [exact E|]. apply (proj1 IH eq_refl). exact Hb.
Qed.

Lemma split_at {A} (l : list A) k d : (S k < List.length l)%nat ->
  l = firstn k l ++ nth k l d :: nth (S k) l d :: skipn (S (S k)) l /\
  firstn (S k) l = firstn k l ++ [nth k l d] /\ skipn (S k) l = nth (S k) l d :: skipn (S (S k)) l.
Proof.
  revert l. induction k as [|k IH]; intros l H.
  - destruct l as [|a [|b l]]; cbn in H; try lia. repeat split.
  - destruct l as [|a l]; cbn in H; [lia|]. destruct (IH l ltac:(lia)) as (I1 & I2 & I3).
    change (skipn (S (S (S k))) (a :: l)) with (skipn (S (S k)) l).
    change (skipn (S (S k)) (a :: l)) with (skipn (S k) l).
    change (nth (S k) (a :: l) d) with (nth k l d).
    change (nth (S (S k)) (a :: l) d) with (nth (S k) l d).
    change (firstn (S (S k)) (a :: l)) with (a :: firstn (S k) l).
    change (firstn (S k) (a :: l)) with (a :: firstn k l).
    repeat split; cbn [app]; congruence.
Qed.

Lemma increments_split {A} (d : cplx -> cplx -> A) zs k x : (S k < List.length zs)%nat ->
  firstn k (increments d zs) = increments d (firstn k zs ++ [nth k zs x]) /\
  skipn (S k) (increments d zs) = increments d (nth (S k) zs x :: skipn (S (S k)) zs) /\
  (forall y, nth k (increments d zs) y = d (nth k zs x) (nth (S k) zs x)).
Proof.
  intro H. destruct (split_at zs k x H) as (E & _ & _).
  set (pre := firstn k zs) in *. set (a := nth k zs x) in *. set (b := nth (S k) zs x) in *.
  set (post := skipn (S (S k)) zs) in *.
  assert (EI : increments d zs = increments d (pre ++ [a]) ++ d a b :: increments d (b :: post)).
  { rewrite E, increments_join. reflexivity. }
  assert (L : List.length (increments d (pre ++ [a])) = k).
  { rewrite increments_length, app_length. unfold pre. rewrite firstn_length_le by lia. cbn. lia. }
  rewrite EI. repeat split.
  - rewrite <- L at 1. rewrite firstn_app, firstn_all, Nat.sub_diag. cbn. apply app_nil_r.
  - rewrite skipn_app, L. replace (S k - k)%nat with 1%nat by lia.
    rewrite skipn_all2 by lia. reflexivity.
  - intro y. rewrite app_nth2 by lia. rewrite L, Nat.sub_diag. reflexivity.
Qed.

Section Loop.
  Context {A : Type} (azero : A).
  Variables (fz : cplx -> bool) (dphase : cplx -> cplx -> A) (large : A -> bool)
    (factor : nat -> A -> nat) (close : cplx -> cplx -> bool) (numPts : nat) (precision : Z * Z).
  Hypothesis factor_large : forall i p, large p = true -> (3 <= factor (S i) p)%nat.

  Notation loop := (phi_loop azero fz dphase large factor close numPts precision).
  Notation genPhi := (genPhiArr azero fz dphase large factor close numPts precision).

  Lemma phi_loop_mono : forall fuel fuel' idx zs phis zeros, (fuel <= fuel')%nat ->
    loop fuel idx zs phis zeros <> GenLoops ->
    loop fuel' idx zs phis zeros = loop fuel idx zs phis zeros.
  Proof.
    induction fuel as [|fuel IH]; intros [|fuel'] idx zs phis zeros L H; try reflexivity; try lia.
    - cbn [phi_loop] in *. destruct (first_index large phis); [congruence|reflexivity].
    - cbn [phi_loop] in *. destruct (first_index large phis) as [k|]; [|reflexivity].
      destruct (close _ _); [reflexivity|]. destruct (Nat.ltb _ _); [reflexivity|].
      destruct (genFuncArr fz precision fuel _ _ _) as [[zRef found]|] eqn:G; [|congruence].
      rewrite (genFuncArr_mono _ _ fuel fuel' _ _ _ _ ltac:(lia) G). apply IH; [lia|exact H].
  Qed.

  (** The invariant [len(zArr) = len(phiArr) + 1] and the growth of the arrays. *)
  Definition lengths (zs : list cplx) (phis : list A) : Prop := List.length zs = S (List.length phis).

  Lemma splice_length k zs phis zRef :
    lengths zs phis -> (k < List.length phis)%nat -> (2 <= List.length zRef)%nat ->
    lengths (firstn (S k) zs ++ removelast (tl zRef) ++ skipn (S k) zs)
            (firstn k phis ++ increments dphase zRef ++ skipn (S k) phis) /\
    List.length (firstn (S k) zs ++ removelast (tl zRef) ++ skipn (S k) zs) =
      (List.length zs + List.length zRef - 2)%nat.
  Proof.
    unfold lengths. intros H Hk HR.
    assert (LR : List.length (removelast (tl zRef)) = (List.length zRef - 2)%nat).
    { destruct zRef as [|a zr]; cbn [tl List.length] in *; [lia|].
      rewrite removelast_firstn_len, firstn_length. lia. }
    rewrite !app_length, LR, !firstn_length, !skipn_length, increments_length. split; lia.
  Qed.

  Lemma phi_loop_lengths : forall fuel idx zs phis zeros zs' phis' zeros',
    lengths zs phis -> loop fuel idx zs phis zeros = Gen zs' phis' zeros' ->
    lengths zs' phis' /\ (List.length zs <= List.length zs')%nat /\
    hd_error zs' = hd_error zs /\ (forall d, last zs' d = last zs d) /\ (exists l, zeros' = zeros ++ l).
  Proof.
    induction fuel as [|fuel IH]; intros idx zs phis zeros zs' phis' zeros' HL H; cbn [phi_loop] in H.
    { destruct (first_index large phis); [discriminate|]. injection H as <- <- <-.
      repeat split; auto. exists []. rewrite app_nil_r. reflexivity. }
    destruct (first_index large phis) as [k|] eqn:FI.
    2:{ injection H as <- <- <-. repeat split; auto. exists []. rewrite app_nil_r. reflexivity. }
    destruct (close _ _).
    { injection H as <- <- <-. repeat split; auto. exists []. rewrite app_nil_r. reflexivity. }
    destruct (Nat.ltb _ _).
    { injection H as <- <- <-. repeat split; auto. exists []. rewrite app_nil_r. reflexivity. }
    destruct (genFuncArr fz precision fuel _ _ _) as [[zRef found]|] eqn:G; [|discriminate].
    destruct (first_index_some _ _ _ FI) as [Hk Hp].
    pose proof (genFuncArr_length _ _ _ _ _ _ _ _ G) as LR.
    pose proof (factor_large idx (nth k phis azero) (Hp _)) as FL.
    destruct (splice_length k zs phis zRef HL Hk ltac:(lia)) as [S1 S2].
    destruct (IH _ _ _ _ _ _ _ S1 H) as (I1 & I2 & I3 & I4 & [l I5]).
    split; [exact I1|]. split; [lia|].
    assert (Hk' : (S k < List.length zs)%nat) by (unfold lengths in HL; lia).
    destruct (split_at zs k (0, 0)%Q Hk') as (E & E1 & E2).
    split; [|split].
    - rewrite I3. destruct zs as [|a zs]; [cbn in Hk'; lia|reflexivity].
    - intro d. rewrite I4.
      assert (LA : forall (l l' : list cplx) x, last (l ++ x :: l') d = last (x :: l') d).
      { clear. intros l l' x. induction l as [|y l IH]; [reflexivity|].
        change ((y :: l) ++ x :: l') with (y :: (l ++ x :: l')).
        destruct (l ++ x :: l') eqn:E; [destruct l; discriminate|exact IH]. }
      set (b := nth (S k) zs (0, 0)%Q) in *. set (a := nth k zs (0, 0)%Q) in *.
      assert (LZ : last zs d = last (b :: skipn (S (S k)) zs) d).
      { rewrite E at 1. change (a :: b :: skipn (S (S k)) zs) with ([a] ++ b :: skipn (S (S k)) zs).
        rewrite app_assoc. apply LA. }
      rewrite LZ, E2, app_assoc. apply LA.
    - exists (found ++ l). rewrite I5, app_assoc. reflexivity.
  Qed.

  (** Exit condition. *)
  Definition exit_condition (zs : list cplx) (phis : list A) : Prop :=
    (forall p, In p phis -> large p = false) \/
    (exists k, first_index large phis = Some k /\
       (close (nth k zs (0, 0)%Q) (nth (S k) zs (0, 0)%Q) = true \/
        (MAX_Z_LENGTH * numPts < List.length zs)%nat)).

  Lemma phi_loop_exit : forall fuel idx zs phis zeros zs' phis' zeros',
    loop fuel idx zs phis zeros = Gen zs' phis' zeros' -> exit_condition zs' phis'.
  Proof.
    induction fuel as [|fuel IH]; intros idx zs phis zeros zs' phis' zeros' H; cbn [phi_loop] in H.
    { destruct (first_index large phis) eqn:FI; [discriminate|]. injection H as <- <- <-.
      left. apply first_index_none. exact FI. }
    destruct (first_index large phis) as [k|] eqn:FI.
    2:{ injection H as <- <- <-. left. apply first_index_none. exact FI. }
    destruct (close _ _) eqn:C.
    { injection H as <- <- <-. right. exists k. auto. }
    destruct (Nat.ltb _ _) eqn:LT.
    { injection H as <- <- <-. right. exists k. split; [exact FI|]. right. apply Nat.ltb_lt, LT. }
    destruct (genFuncArr fz precision fuel _ _ _) as [[zRef found]|]; [|discriminate].
    eapply IH, H.
  Qed.

  (** Termination: every round adds points, and the number of points is capped. *)
  Lemma phi_loop_terminates :
    (forall a b n, exists fuel, genFuncArr fz precision fuel a b n <> None) ->
    forall m zs phis idx zeros, lengths zs phis ->
    (MAX_Z_LENGTH * numPts < List.length zs + m)%nat ->
    exists fuel, loop fuel idx zs phis zeros <> GenLoops.
  Proof.
    intro HG. induction m as [|m IH]; intros zs phis idx zeros HL HM.
    - exists 1%nat. cbn [phi_loop]. destruct (first_index large phis); [|discriminate].
      destruct (close _ _); [discriminate|].
      assert (Nat.ltb (MAX_Z_LENGTH * numPts) (List.length zs) = true) as -> by (apply Nat.ltb_lt; lia).
      discriminate.
    - destruct (first_index large phis) as [k|] eqn:FI.
      2:{ exists 0%nat. cbn [phi_loop]. rewrite FI. discriminate. }
      destruct (HG (nth k zs (0, 0)%Q) (nth (S k) zs (0, 0)%Q) (factor (S idx) (nth k phis azero))) as [g Hg].
      destruct (genFuncArr fz precision g _ _ _) as [[zRef found]|] eqn:G; [|congruence].
      destruct (first_index_some _ _ _ FI) as [Hk Hp].
      pose proof (genFuncArr_length _ _ _ _ _ _ _ _ G) as LR.
      pose proof (factor_large idx (nth k phis azero) (Hp _)) as FL.
      destruct (splice_length k zs phis zRef HL Hk ltac:(lia)) as [S1 S2].
      destruct (IH _ _ (S idx) (zeros ++ found) S1 ltac:(lia)) as [fuel Hf].
      exists (S (Nat.max g fuel)). cbn [phi_loop]. rewrite FI.
      destruct (close _ _); [discriminate|]. destruct (Nat.ltb _ _); [discriminate|].
      rewrite (genFuncArr_mono _ _ g _ _ _ _ _ (Nat.le_max_l g fuel) G).
      rewrite (phi_loop_mono fuel); [exact Hf|apply Nat.le_max_r|exact Hf].
  Qed.

  (** Explicit bound for a function without zeros. *)
  Lemma phi_loop_bound : (forall z, fz z = false) ->
    forall m zs phis idx zeros fuel, lengths zs phis ->
    (MAX_Z_LENGTH * numPts < List.length zs + m)%nat -> (m + 1 < fuel)%nat ->
    loop fuel idx zs phis zeros <> GenLoops.
  Proof.
    intro HZ.
    assert (HF : forall l, filter fz l = []).
    { intro l. induction l as [|z l IH]; [reflexivity|]. cbn. rewrite HZ. exact IH. }
    induction m as [|m IH]; intros zs phis idx zeros fuel HL HM HF'.
    - destruct fuel as [|fuel]; [lia|]. cbn [phi_loop]. destruct (first_index large phis); [|discriminate].
      destruct (close _ _); [discriminate|].
      assert (Nat.ltb (MAX_Z_LENGTH * numPts) (List.length zs) = true) as -> by (apply Nat.ltb_lt; lia).
      discriminate.
    - destruct fuel as [|fuel]; [lia|]. cbn [phi_loop].
      destruct (first_index large phis) as [k|] eqn:FI; [|discriminate].
      destruct (close _ _); [discriminate|]. destruct (Nat.ltb _ _); [discriminate|].
      destruct (genFuncArr fz precision fuel _ _ _) as [[zRef found]|] eqn:G.
      2:{ destruct fuel as [|fuel]; [lia|]. unfold genFuncArr in G. cbn [shift_loop] in G.
          rewrite HF in G. discriminate. }
      destruct (first_index_some _ _ _ FI) as [Hk Hp].
      pose proof (genFuncArr_length _ _ _ _ _ _ _ _ G) as LR.
      pose proof (factor_large idx (nth k phis azero) (Hp _)) as FL.
      destruct (splice_length k zs phis zRef HL Hk ltac:(lia)) as [S1 S2].
      apply IH; [exact S1|lia|lia].
  Qed.

  (** No zero found: the phases are those between neighbouring samples of one chain from zStart
      to zEnd, along which any relation preserved by subdividing holds. *)
  Section Chain.
    Variable P : cplx -> cplx -> Prop.
    Hypothesis P_subdivide : forall a b n, P a b -> chain P (linspaceC a b n).

    Lemma chain_join (l : list cplx) x l' : chain P (l ++ x :: l') <-> chain P (l ++ [x]) /\ chain P (x :: l').
    Proof.
      induction l as [|z l IH]; [cbn; destruct l'; tauto|].
      destruct l as [|z' l].
      - cbn. destruct l'; tauto.
      - change (chain P ((z :: z' :: l) ++ x :: l')) with (P z z' /\ chain P ((z' :: l) ++ x :: l')).
        change (chain P ((z :: z' :: l) ++ [x])) with (P z z' /\ chain P ((z' :: l) ++ [x])).
        tauto.
    Qed.

    Lemma phi_loop_chain : forall fuel idx zs zs' phis',
      (2 <= List.length zs)%nat -> chain P zs -> filter fz zs = [] ->
      loop fuel idx zs (increments dphase zs) [] = Gen zs' phis' [] ->
      phis' = increments dphase zs' /\ chain P zs' /\ filter fz zs' = [] /\ (2 <= List.length zs')%nat.
    Proof.
      induction fuel as [|fuel IH]; intros idx zs zs' phis' HN HC HZ H; cbn [phi_loop] in H.
      { destruct (first_index large _); [discriminate|]. injection H as <- <-. auto. }
      destruct (first_index large (increments dphase zs)) as [k|] eqn:FI.
      2:{ injection H as <- <-. auto. }
      destruct (close _ _). { injection H as <- <-. auto. }
      destruct (Nat.ltb _ _). { injection H as <- <-. auto. }
      destruct (genFuncArr fz precision fuel _ _ _) as [[zRef found]|] eqn:G; [|discriminate].
      destruct (first_index_some _ _ _ FI) as [Hk Hp].
      rewrite increments_length in Hk.
      assert (Hk' : (S k < List.length zs)%nat) by lia.
      assert (found = []) as ->.
      { assert (HL : lengths zs (increments dphase zs)) by (unfold lengths; rewrite increments_length; lia).
        pose proof (genFuncArr_length _ _ _ _ _ _ _ _ G) as LR.
        pose proof (factor_large idx (nth k (increments dphase zs) azero) (Hp _)) as FL.
        destruct (splice_length k zs _ zRef HL ltac:(rewrite increments_length; lia) ltac:(lia)) as [S1 S2].
        destruct (phi_loop_lengths _ _ _ _ _ _ _ _ S1 H) as (_ & _ & _ & _ & [l I]).
        symmetry in I. apply app_eq_nil in I as [I _]. exact I. }
      destruct (genFuncArr_unshifted _ _ _ _ _ _ _ G) as [GE GZ].
      pose proof (factor_large idx (nth k (increments dphase zs) azero) (Hp _)) as FL.
      destruct (split_at zs k (0, 0)%Q Hk') as (E & E1 & E2).
      destruct (increments_split dphase zs k (0, 0)%Q Hk') as (I1 & I2 & _).
      set (a := nth k zs (0, 0)%Q) in *. set (b := nth (S k) zs (0, 0)%Q) in *.
      assert (HR : exists mid, zRef = a :: mid ++ [b]).
      { rewrite GE. destruct (factor _ _) as [|[|m]]; [lia|lia|].
        cbn [linspaceC]. eexists. reflexivity. }
      destruct HR as [mid HR].
      assert (HRM : removelast (tl zRef) = mid).
      { rewrite HR. cbn [tl]. apply removelast_last. }
      assert (HPab : P a b).
      { rewrite E in HC. apply chain_join in HC as [_ HC]. exact (proj1 HC). }
      assert (HCR : chain P zRef) by (rewrite GE; apply P_subdivide, HPab).
      rewrite HRM, E1, E2, I1, I2 in H. cbn [app] in H.
      assert (HI : increments dphase ((firstn k zs ++ [a]) ++ mid ++ b :: skipn (S (S k)) zs) =
                   increments dphase (firstn k zs ++ [a]) ++ increments dphase zRef ++
                   increments dphase (b :: skipn (S (S k)) zs)).
      { rewrite <- app_assoc. cbn [app]. rewrite increments_join. f_equal. rewrite HR.
        change (a :: mid ++ b :: skipn (S (S k)) zs) with ((a :: mid) ++ b :: skipn (S (S k)) zs).
        rewrite increments_join. reflexivity. }
      rewrite <- HI in H. apply IH in H; [exact H| | |].
      - rewrite !app_length. cbn. lia.
      - rewrite <- app_assoc. cbn [app]. apply chain_join.
        rewrite E in HC. apply chain_join in HC as [HC1 HC2]. split; [exact HC1|].
        change (a :: mid ++ b :: skipn (S (S k)) zs) with ((a :: mid) ++ b :: skipn (S (S k)) zs).
        apply chain_join. split; [|exact (proj2 HC2)]. rewrite HR in HCR. exact HCR.
      - rewrite E in HZ. rewrite filter_app in HZ. apply app_eq_nil in HZ as [Z1 Z2].
        change (a :: b :: skipn (S (S k)) zs) with ([a] ++ (b :: skipn (S (S k)) zs)) in Z2.
        rewrite filter_app in Z2. apply app_eq_nil in Z2 as [Z2 Z3].
        rewrite HR in GZ. change (a :: mid ++ [b]) with ([a] ++ mid ++ [b]) in GZ.
        rewrite !filter_app in GZ. apply app_eq_nil in GZ as [_ GZ]. apply app_eq_nil in GZ as [GZ _].
        rewrite !filter_app, Z1, Z2, Z3, GZ. reflexivity.
    Qed.

    Lemma genPhi_chain fuel a b zs phis : (2 <= numPts)%nat ->
      chain P (linspaceC a b numPts) ->
      genPhi fuel 0 a b = Gen zs phis [] ->
      phis = increments dphase zs /\ chain P zs /\ filter fz zs = [] /\
      exists mid, zs = a :: mid ++ [b].
    Proof.
      intros HN HC H. unfold genPhiArr in H. cbn [Z.eqb] in H.
      destruct (genFuncArr fz precision fuel a b numPts) as [[z0 found]|] eqn:G; [|discriminate].
      pose proof (genFuncArr_length _ _ _ _ _ _ _ _ G) as LR.
      assert (HL : lengths z0 (increments dphase z0)) by (unfold lengths; rewrite increments_length; lia).
      destruct (phi_loop_lengths _ _ _ _ _ _ _ _ HL H) as (L1 & L2 & L3 & L4 & [l L5]).
      symmetry in L5. apply app_eq_nil in L5 as [-> _].
      destruct (genFuncArr_unshifted _ _ _ _ _ _ _ G) as [-> GZ].
      assert (H2 : (2 <= List.length (linspaceC a b numPts))%nat) by lia.
      destruct (phi_loop_chain _ _ _ _ _ H2 HC GZ H) as (C1 & C2 & C3 & C4).
      split; [exact C1|]. split; [exact C2|]. split; [exact C3|].
      destruct numPts as [|[|m]]; [lia|lia|]. cbn [linspaceC] in L3, L4.
      destruct zs as [|z zs]; [discriminate|]. injection L3 as ->.
      destruct (exists_last (l := zs)) as (mid & x & ->); [destruct zs; [cbn in C4; lia|discriminate]|].
      exists mid. do 2 f_equal. specialize (L4 (0,0)%Q).
      rewrite !app_comm_cons, !last_last in L4. rewrite L4. reflexivity.
    Qed.
  End Chain.
End Loop.
