(** * Proofs about the summation estimator: splitting and staleness *)
From Coq Require Import Reals.
From Verif Require Import PyBase Cache_Proofs Sum_Model Sum_Spec Angle_Proofs Sum_Proofs Sum_Proofs2 Sum_Proofs3 Sum_Proofs4.
From Coq Require Import Lra Lqa.
Open Scope Z_scope.

(** ** Searching a sorted array *)
Lemma last_index_char {A} (p : A -> bool) d l : forall i, (i < List.length l)%nat -> p (nth i l d) = true ->
  (forall j, (i < j)%nat -> (j < List.length l)%nat -> p (nth j l d) = false) -> last_index p l = Some i.
Proof.
  induction l as [|a l IH]; intros i Hi Hp Hn; cbn in Hi; [lia|]. cbn [last_index].
  destruct i as [|i].
  - assert (N : last_index p l = None).
    { assert (F : forall j, (j < List.length l)%nat -> p (nth j l d) = false).
      { intros j Hj. apply (Hn (S j)); cbn; lia. }
      clear -F. induction l as [|b l IH]; [reflexivity|]. cbn. rewrite IH.
      - specialize (F 0%nat). cbn in F. rewrite F by lia. reflexivity.
      - intros j Hj. apply (F (S j)). cbn. lia. }
    rewrite N. cbn in Hp. rewrite Hp. reflexivity.
  - rewrite (IH i); [reflexivity|lia|exact Hp|]. intros j H1 H2. apply (Hn (S j)); cbn; lia.
Qed.

Lemma first_index_char {A} (p : A -> bool) d l : forall i, (i < List.length l)%nat -> p (nth i l d) = true ->
  (forall j, (j < i)%nat -> p (nth j l d) = false) -> first_index p l = Some i.
Proof.
  induction l as [|a l IH]; intros i Hi Hp Hn; cbn in Hi; [lia|]. cbn [first_index].
  destruct i as [|i]; [cbn in Hp; rewrite Hp; reflexivity|].
  pose proof (Hn 0%nat ltac:(lia)) as H0. cbn in H0. rewrite H0.
  rewrite (IH i); [reflexivity|lia|exact Hp|]. intros j Hj. apply (Hn (S j)). lia.
Qed.

Lemma count_prefix {A} (p : A -> bool) d l : forall k, (k <= List.length l)%nat ->
  (forall j, (j < k)%nat -> p (nth j l d) = true) -> (k <= count_where p l)%nat.
Proof.
  unfold count_where. induction l as [|a l IH]; intros k Hk H; cbn in *; [lia|].
  destruct k as [|k]; [lia|]. pose proof (H 0%nat ltac:(lia)) as H0. cbn in H0. rewrite H0. cbn.
  specialize (IH k ltac:(lia)). apply le_n_S, IH. intros j Hj. apply (H (S j)). lia.
Qed.

Lemma count_suffix {A} (p : A -> bool) d l : forall k,
  (forall j, (k <= j)%nat -> (j < List.length l)%nat -> p (nth j l d) = true) ->
  (List.length l - k <= count_where p l)%nat.
Proof.
  unfold count_where. induction l as [|a l IH]; intros k H; cbn in *; [lia|].
  destruct k as [|k].
  - pose proof (H 0%nat ltac:(lia) ltac:(lia)) as H0. cbn in H0. rewrite H0. cbn.
    specialize (IH 0%nat). apply le_n_S. replace (List.length l) with (List.length l - 0)%nat by lia.
    apply IH. intros j H1 H2. apply (H (S j)); lia.
  - assert (I : (List.length l - k <= List.length (filter p l))%nat).
    { apply IH. intros j H1 H2. apply (H (S j)); lia. }
    destruct (p a); cbn; lia.
Qed.

Lemma chain_nth (coord : cplx -> Q) (P : cplx -> cplx -> Prop) (HP : forall a b, P a b -> (coord a < coord b)%Q) d :
  forall l, chain P l -> forall i j, (i < j)%nat -> (j < List.length l)%nat -> (coord (nth i l d) < coord (nth j l d))%Q.
Proof.
  induction l as [|a l IH]; intros C i j Hij Hj; cbn in Hj; [lia|].
  destruct l as [|b l]; [cbn in Hj; lia|]. destruct C as [C1 C2].
  destruct j as [|j]; [lia|]. destruct i as [|i].
  - apply HP in C1. destruct j as [|j]; [exact C1|].
    specialize (IH C2 0%nat (S j) ltac:(lia) ltac:(cbn in *; lia)). cbn [nth] in *. Lqa.lra.
  - apply (IH C2 i j); cbn in *; lia.
Qed.

Lemma skey_SE t t' : skey_eqb (t, StartSide) (t', EndSide) = false.
Proof. unfold skey_eqb. cbn. apply andb_false_r. Qed.
Lemma skey_ES t t' : skey_eqb (t, EndSide) (t', StartSide) = false.
Proof. unfold skey_eqb. cbn. apply andb_false_r. Qed.
Lemma skey_diff t t' s s' : ~ (t == t')%Q -> skey_eqb (t, s) (t', s') = false.
Proof.
  intro H. unfold skey_eqb. cbn [fst snd].
  assert (Qeq_bool t t' = false) as -> by (apply Qeqb_false, H). reflexivity.
Qed.

(** ** Requests answered from the cache (any function, any settings) *)
Section Hit.
  Variables (horiz : bool) (level : Q).
  Definition line_cache (st : sum_state R) : lcache R := if horiz then horizontal st else vertical st.
  Definition other_cache (st : sum_state R) : lcache R := if horiz then vertical st else horizontal st.

  Lemma sum_line_as_retrieve g delta mp n prec fuel t1 t2 st : (t1 < t2)%Q ->
    sum_line g delta mp n prec fuel 0 (mkpoint horiz level t1) (mkpoint horiz level t2) st =
    match retrieveCached 0%R Rplus Ropp (vanishes g) (phase_step g) (at_least delta) (refinement delta)
       (nearer mp) n prec (if horiz then horizontal_end_test else vertical_end_test) (coord_of horiz)
       (mkpoint horiz level) level fuel 0 t1 t2 (line_cache st) with
    | LineOk c found phi => (if horiz then mkSum c (vertical st) else mkSum (horizontal st) c, SumOk found phi)
    | LineErr e => (st, SumErr e)
    | LineLoops => (st, SumLoops)
    end.
  Proof.
    intro L. unfold sum_line, sumLine, line_cache. destruct horiz; cbn [mkpoint re im fst snd coord_of].
    - rewrite Qeq_bool_refl. reflexivity.
    - assert (Qeq_bool t1 t2 = false) as -> by (apply Qeqb_false; Lqa.lra). rewrite Qeq_bool_refl. reflexivity.
  Qed.

  Lemma cached_level (c : lcache R) t s v : cached c level 0 t s = Some v ->
    exists d, dget okey_eqb (level, 0) c = Some d /\ dget skey_eqb (t, s) d = Some v.
  Proof.
    unfold cached. destruct (dget okey_eqb (level, 0) c) as [d|]; [|discriminate]. intro H. exists d. auto.
  Qed.

  (** The request starts where a cached line starts. *)
  Lemma start_hit g delta mp n prec fuel t1 t2 st zs phis m : (t1 < t2)%Q ->
    cached (line_cache st) level 0 t1 StartSide = Some (zs, phis) ->
    (3 <= count_where (fun z => Qle_bool (coord_of horiz z) t2) zs)%nat ->
    last_index (fun z => Qle_bool (coord_of horiz z) t2) zs = Some m ->
    exists st', sum_line g delta mp n prec fuel 0 (mkpoint horiz level t1) (mkpoint horiz level t2) st =
      (st', SumOk [] (Rsum (firstn (S m) phis))) /\
      other_cache st' = other_cache st /\
      line_cache st' = storeCache level 0 t1 t2 (firstn (S m) zs, firstn (S m) phis) (line_cache st).
  Proof.
    intros L HC H3 HM. rewrite sum_line_as_retrieve by exact L.
    destruct (cached_level _ _ _ _ HC) as (d & D1 & D2).
    unfold retrieveCached. rewrite D1.
    assert (Qltb t1 t2 = true) as -> by (apply Qltb_true, L).
    assert (Qle_bool t1 t2 = true) as -> by (apply Qle_bool_iff; Lqa.lra).
    rewrite D2. cbn [fst snd].
    assert (Nat.ltb (count_where (fun z => Qle_bool (coord_of horiz z) t2) zs) 3 = false) as ->
      by (apply Nat.ltb_ge; exact H3).
    rewrite HM. unfold line_cache, other_cache. destruct horiz; eexists; repeat split; reflexivity.
  Qed.

  (** The request ends where a cached line ends. *)
  Lemma end_hit g delta mp n prec fuel t1 t2 st zs phis m : (t1 < t2)%Q ->
    cached (line_cache st) level 0 t1 StartSide = None ->
    cached (line_cache st) level 0 t2 EndSide = Some (zs, phis) ->
    (3 <= count_where ((if horiz then horizontal_end_test else vertical_end_test) t1 t2) zs)%nat ->
    first_index (fun z => Qle_bool t1 (coord_of horiz z)) zs = Some m ->
    exists st', sum_line g delta mp n prec fuel 0 (mkpoint horiz level t1) (mkpoint horiz level t2) st =
      (st', SumOk [] (Rsum (skipn m phis))).
  Proof.
    intros L HN HC H3 HM. rewrite sum_line_as_retrieve by exact L.
    destruct (cached_level _ _ _ _ HC) as (d & D1 & D2).
    assert (D3 : dget skey_eqb (t1, StartSide) d = None).
    { unfold cached in HN. rewrite D1 in HN. exact HN. }
    unfold retrieveCached. rewrite D1.
    assert (Qltb t1 t2 = true) as -> by (apply Qltb_true, L).
    assert (Qle_bool t1 t2 = true) as -> by (apply Qle_bool_iff; Lqa.lra).
    rewrite D3, D2. cbn [fst snd].
    match goal with |- context [Nat.ltb ?a 3] => assert (Nat.ltb a 3 = false) as -> end.
    { apply Nat.ltb_ge; exact H3. }
    rewrite HM. destruct horiz; eexists; reflexivity.
  Qed.
End Hit.

(** ** Splitting a line that was sampled before (C40) *)
Section Split.
  Variables (f : cplx -> cR) (delta : R) (mp : Q) (n : nat) (prec : Z * Z).
  Hypothesis delta_pos : (0 < delta)%R.
  Hypothesis n_big : (2 <= n)%nat.
  Variables (horiz : bool) (level : Q).
  Notation pt := (mkpoint horiz level).
  Notation co := (coord_of horiz).

  Lemma split_line fuel t1 t2 st0 st p : (t1 < t2)%Q -> level_free st0 horiz level ->
    sum_line f delta mp n prec fuel 0 (pt t1) (pt t2) st0 = (st, SumOk [] p) ->
    exists zs, p = Rsum (increments (phase_step f) zs) /\
      chain (on_line co (other_of horiz) level ((t2 - t1) / inject_Z (Z.of_nat (n - 1)))) zs /\
      hd_error zs = Some (pt t1) /\ last zs (pt t1) = pt t2 /\
      forall i tm, (2 <= i)%nat -> (i + 4 <= List.length zs)%nat ->
      forall g delta' mp' n' prec' fuel' g2 delta2 mp2 n2 prec2 fuel2,
      ((co (nth i zs (pt 0)) < tm)%Q -> (tm < co (nth (S i) zs (pt 0)))%Q ->
        exists st1 st2 pl pr,
          sum_line g delta' mp' n' prec' fuel' 0 (pt t1) (pt tm) st = (st1, SumOk [] pl) /\
          sum_line g2 delta2 mp2 n2 prec2 fuel2 0 (pt tm) (pt t2) st1 = (st2, SumOk [] pr) /\
          (pl + pr = p)%R) /\
      ((co (nth i zs (pt 0)) == tm)%Q ->
        exists st1 st2 pl pr,
          sum_line g delta' mp' n' prec' fuel' 0 (pt t1) (pt tm) st = (st1, SumOk [] pl) /\
          sum_line g2 delta2 mp2 n2 prec2 fuel2 0 (pt tm) (pt t2) st1 = (st2, SumOk [] pr) /\
          (pl + pr = p + phase_step f (nth i zs (pt 0)) (nth (S i) zs (pt 0)))%R).
  Proof.
    intros L HF H.
    destruct (fresh_line f delta mp n prec delta_pos n_big horiz level fuel t1 t2 st0 st p L HF H)
      as (mid & E & HZ & HC & F1 & F2).
    set (zs := pt t1 :: mid ++ [pt t2]) in *. exists zs.
    split; [exact E|]. split; [exact HC|]. split; [reflexivity|].
    split; [unfold zs; rewrite app_comm_cons; apply last_last|].
    intros i tm Hi1 Hi2 g delta' mp' n' prec' fuel' g2 delta2 mp2 n2 prec2 fuel2.
    set (phis := increments (phase_step f) zs) in *.
    assert (LP : List.length phis = pred (List.length zs)) by apply increments_length.
    assert (SORT : forall i j, (i < j)%nat -> (j < List.length zs)%nat ->
       (co (nth i zs (pt 0%Q)) < co (nth j zs (pt 0%Q)))%Q).
    { apply (chain_nth co _ (fun a b (X : on_line co (other_of horiz) level _ a b) =>
         ltac:(destruct X as (_ & _ & X1 & _); Lqa.lra)) _ zs HC). }
    assert (C0 : co (nth 0 zs (pt 0%Q)) = t1) by (unfold zs; destruct horiz; reflexivity).
    assert (CL : co (nth (List.length zs - 1) zs (pt 0%Q)) = t2).
    { unfold zs. rewrite app_comm_cons, app_length. cbn [List.length].
      replace (S (List.length mid) + 1 - 1)%nat with (List.length (pt t1 :: mid)) by (cbn; lia).
      rewrite app_nth2, Nat.sub_diag by lia. destruct horiz; reflexivity. }
    assert (LEV : dget okey_eqb (level, 0) (dset okey_eqb (level, 0) ([] : list ((Q * side) * entry R))
        (line_cache horiz st0)) = Some []).
    { rewrite (dget_dset okey_eqb okey_t okey_s), okey_r. reflexivity. }
    assert (CC : forall t s, cached (line_cache horiz st) level 0 t s =
       if skey_eqb (t, s) (t2, EndSide) then Some (zs, phis)
       else if skey_eqb (t, s) (t1, StartSide) then Some (zs, phis) else None).
    { intros t s. unfold line_cache in *. rewrite F2, cached_store by (rewrite (dget_dset okey_eqb okey_t okey_s), okey_r; discriminate).
      rewrite okey_r. unfold cached.
      rewrite (dget_dset okey_eqb okey_t okey_s), okey_r. reflexivity. }
    assert (LT : (S i < List.length zs)%nat) by lia.
    assert (core : forall m, (t1 < tm)%Q -> (tm < t2)%Q ->
       (forall j, (j <= i)%nat -> (co (nth j zs (pt 0%Q)) <= tm)%Q) ->
       (forall j, (i < j)%nat -> (j < List.length zs)%nat -> (tm < co (nth j zs (pt 0%Q)))%Q) ->
       (m = i \/ m = S i) ->
       (tm <= co (nth m zs (pt 0%Q)))%Q -> (forall j, (j < m)%nat -> (co (nth j zs (pt 0%Q)) < tm)%Q) ->
       exists st1 st2,
          sum_line g delta' mp' n' prec' fuel' 0 (pt t1) (pt tm) st = (st1, SumOk [] (Rsum (firstn (S i) phis))) /\
          sum_line g2 delta2 mp2 n2 prec2 fuel2 0 (pt tm) (pt t2) st1 = (st2, SumOk [] (Rsum (skipn m phis)))).
    { intros m L1 L2 B1 B2 Hm M1 M2.
      destruct (start_hit horiz level g delta' mp' n' prec' fuel' t1 tm st zs phis i L1) as (st1 & S1 & S2 & S3).
      - rewrite CC. destruct (skey_eqb (t1, StartSide) (t2, EndSide)) eqn:K.
        { apply skey_iff in K as [_ K]. discriminate. }
        rewrite skey_r. reflexivity.
      - apply Nat.le_trans with (S i); [lia|]. apply (count_prefix _ (pt 0%Q)); [lia|].
        intros j Hj. apply Qle_bool_iff, B1. lia.
      - apply (last_index_char _ (pt 0%Q)); [lia|apply Qle_bool_iff, B1; lia|].
        intros j H1 H2. apply Qleb_false, B2; assumption.
      - assert (NE : dget okey_eqb (level, 0) (line_cache horiz st) <> None).
        { unfold line_cache in *. rewrite F2. intro C. apply level_store in C.
          rewrite (dget_dset okey_eqb okey_t okey_s), okey_r in C. discriminate. }
        assert (CS : forall t s, cached (line_cache horiz st1) level 0 t s =
           if skey_eqb (t, s) (tm, EndSide) then Some (firstn (S i) zs, firstn (S i) phis)
           else if skey_eqb (t, s) (t1, StartSide) then Some (firstn (S i) zs, firstn (S i) phis)
           else cached (line_cache horiz st) level 0 t s).
        { intros t s. rewrite S3, cached_store by exact NE. rewrite okey_r. reflexivity. }
        destruct (end_hit horiz level g2 delta2 mp2 n2 prec2 fuel2 tm t2 st1 zs phis m L2) as (st2 & R2).
        + rewrite CS, CC.
          assert (K1 : skey_eqb (tm, StartSide) (tm, EndSide) = false).
          { apply skey_SE || apply skey_ES. }
          assert (K2 : skey_eqb (tm, StartSide) (t1, StartSide) = false).
          { apply skey_diff. Lqa.lra. }
          assert (K3 : skey_eqb (tm, StartSide) (t2, EndSide) = false).
          { apply skey_SE || apply skey_ES. }
          rewrite K1, K2, K3. reflexivity.
        + rewrite CS, CC.
          assert (K1 : skey_eqb (t2, EndSide) (tm, EndSide) = false).
          { apply skey_diff. Lqa.lra. }
          assert (K2 : skey_eqb (t2, EndSide) (t1, StartSide) = false).
          { apply skey_SE || apply skey_ES. }
          rewrite K1, K2, skey_r. reflexivity.
        + destruct horiz.
          * apply Nat.le_trans with (List.length zs - S i)%nat; [lia|].
            apply (count_suffix _ (mkpoint true level 0%Q)). intros j H1 H2. apply Qle_bool_iff. apply Qlt_le_weak.
            apply (B2 j); lia.
          * apply Nat.le_trans with (List.length zs); [lia|].
            apply (count_prefix _ (mkpoint false level 0%Q)); [lia|]. intros j Hj. apply Qle_bool_iff.
            change (im (nth j zs (mkpoint false level 0%Q)) <= t2)%Q. change im with (coord_of false).
            destruct (Nat.eq_dec j (List.length zs - 1)) as [->|Nj]; [rewrite CL; Lqa.lra|].
            pose proof (SORT j (List.length zs - 1)%nat ltac:(lia) ltac:(lia)) as S. rewrite CL in S. Lqa.lra.
        + apply (first_index_char _ (pt 0%Q)); [destruct Hm; lia|apply Qle_bool_iff; exact M1|].
          intros j Hj. apply Qleb_false, M2, Hj.
        + exists st1, st2. split; [exact S1|exact R2]. }
    assert (SP : phis = firstn (S i) phis ++ skipn (S i) phis) by (symmetry; apply firstn_skipn).
    assert (P1 : (t1 < co (nth i zs (pt 0%Q)))%Q).
    { rewrite <- C0. apply SORT; lia. }
    assert (P2 : (co (nth (S i) zs (pt 0%Q)) < t2)%Q).
    { rewrite <- CL. apply SORT; lia. }
    assert (P3 : (co (nth i zs (pt 0%Q)) < co (nth (S i) zs (pt 0%Q)))%Q) by (apply SORT; lia).
    assert (BLW : forall j, (j <= i)%nat -> (co (nth j zs (pt 0%Q)) <= co (nth i zs (pt 0%Q)))%Q).
    { intros j Hj. destruct (Nat.eq_dec j i) as [->|Nj]; [Lqa.lra|].
      apply Qlt_le_weak, SORT; lia. }
    assert (ABV : forall j, (i < j)%nat -> (j < List.length zs)%nat ->
      (co (nth (S i) zs (pt 0%Q)) <= co (nth j zs (pt 0%Q)))%Q).
    { intros j H1 H2. destruct (Nat.eq_dec j (S i)) as [->|Nj]; [Lqa.lra|].
      apply Qlt_le_weak, SORT; lia. }
    split.
    - intros T1 T2. destruct (core (S i)) as (st1 & st2 & R1 & R2).
      + Lqa.lra. + Lqa.lra.
      + intros j Hj. specialize (BLW j Hj). Lqa.lra.
      + intros j H1 H2. specialize (ABV j H1 H2). Lqa.lra.
      + right; reflexivity.
      + Lqa.lra.
      + intros j Hj. specialize (BLW j ltac:(lia)). Lqa.lra.
      + exists st1, st2, (Rsum (firstn (S i) phis)), (Rsum (skipn (S i) phis)).
        split; [exact R1|]. split; [exact R2|]. rewrite E, <- Rsum_app. f_equal. symmetry. exact SP.
    - intro T. destruct (core i) as (st1 & st2 & R1 & R2).
      + Lqa.lra. + Lqa.lra.
      + intros j Hj. specialize (BLW j Hj). Lqa.lra.
      + intros j H1 H2. specialize (ABV j H1 H2). Lqa.lra.
      + left; reflexivity.
      + Lqa.lra.
      + intros j Hj. rewrite <- T. apply SORT; lia.
      + exists st1, st2, (Rsum (firstn (S i) phis)), (Rsum (skipn i phis)).
        split; [exact R1|]. split; [exact R2|].
        assert (SK : skipn i phis = nth i phis 0%R :: skipn (S i) phis).
        { assert (G : forall (l : list R) k, (k < List.length l)%nat -> skipn k l = nth k l 0%R :: skipn (S k) l).
          { clear. induction l as [|a l IH]; intros k Hk; cbn in Hk; [lia|].
            destruct k; [reflexivity|]. cbn [skipn nth]. rewrite IH by lia. reflexivity. }
          apply G. lia. }
        rewrite SK, Rsum_cons.
        assert (NTH : nth i phis 0%R = phase_step f (nth i zs (pt 0%Q)) (nth (S i) zs (pt 0%Q))).
        { unfold phis. apply (increments_split (phase_step f) zs i (pt 0%Q) LT). }
        rewrite NTH, E. fold phis. rewrite SP at 3. rewrite Rsum_app. Lra.lra.
  Qed.

  (** ** A longer line with the same start gets the phase of the shorter one (C41) *)
  Lemma requery fuel t1 tm st0 st p : (t1 < tm)%Q -> (3 <= n)%nat -> level_free st0 horiz level ->
    sum_line f delta mp n prec fuel 0 (pt t1) (pt tm) st0 = (st, SumOk [] p) ->
    forall t2 g delta' mp' n' prec' fuel', (tm <= t2)%Q ->
    snd (sum_line g delta' mp' n' prec' fuel' 0 (pt t1) (pt t2) st) = SumOk [] p.
  Proof.
    intros L N3 HF H t2 g delta' mp' n' prec' fuel' L2.
    destruct (fresh_line f delta mp n prec delta_pos n_big horiz level fuel t1 tm st0 st p L HF H)
      as (mid & E & HZ & HC & F1 & F2).
    set (zs := pt t1 :: mid ++ [pt tm]) in *.
    assert (LZ : (n <= List.length zs)%nat).
    { (* the number of samples never shrinks *)
      unfold sum_line, sumLine in H.
      assert (G : exists zs' phis, genPhiArr 0%R (vanishes f) (phase_step f) (at_least delta) (refinement delta)
          (nearer mp) n prec fuel 0 (pt t1) (pt tm) = Gen zs' phis [] /\
          (if horiz then horizontal st else vertical st) = storeCache level 0 t1 tm (zs', phis)
          (dset okey_eqb (level, 0) [] (if horiz then horizontal st0 else vertical st0))).
      { unfold level_free in HF. destruct horiz; cbn [mkpoint re im fst snd] in *.
        - rewrite Qeq_bool_refl in H. rewrite retrieve_miss in H by assumption.
          destruct (genPhiArr _ _ _ _ _ _ _ _ _ _ _ _) as [z' ph' fd|e|] eqn:GE; try discriminate.
          injection H as <- -> _. exists z', ph'. split; reflexivity.
        - assert (X : Qeq_bool t1 tm = false) by (apply Qeqb_false; Lqa.lra). rewrite X, Qeq_bool_refl in H.
          rewrite retrieve_miss in H by assumption.
          destruct (genPhiArr _ _ _ _ _ _ _ _ _ _ _ _) as [z' ph' fd|e|] eqn:GE; try discriminate.
          injection H as <- -> _. exists z', ph'. split; reflexivity. }
      destruct G as (zs' & phis' & G & G2).
      assert (EQ : zs' = zs).
      { assert (K : cached (if horiz then horizontal st else vertical st) level 0 t1 StartSide = Some (zs', phis')).
        { rewrite G2, cached_store.
          - rewrite okey_r. destruct (skey_eqb (t1, StartSide) (tm, EndSide)) eqn:K.
            { apply skey_iff in K as [_ K]. discriminate. }
            rewrite skey_r. reflexivity.
          - rewrite (dget_dset okey_eqb okey_t okey_s), okey_r. discriminate. }
        rewrite F2, cached_store in K.
        - rewrite okey_r in K. destruct (skey_eqb (t1, StartSide) (tm, EndSide)) eqn:K'.
          { apply skey_iff in K' as [_ K']. discriminate. }
          rewrite skey_r in K. congruence.
        - rewrite (dget_dset okey_eqb okey_t okey_s), okey_r. discriminate. }
      subst zs'. unfold genPhiArr in G. cbn [Z.eqb] in G.
      destruct (genFuncArr (vanishes f) prec fuel (pt t1) (pt tm) n) as [[z0 fd]|] eqn:GF; [|discriminate].
      pose proof (genFuncArr_length _ _ _ _ _ _ _ _ GF) as LR.
      assert (HL : @lengths R z0 (increments (phase_step f) z0)) by (unfold lengths; rewrite increments_length; lia).
      destruct (phi_loop_lengths 0%R (vanishes f) (phase_step f) (at_least delta) (refinement delta) (nearer mp) n prec
        (refinement_large delta delta_pos) _ _ _ _ _ _ _ _ HL G) as (_ & L4 & _). lia. }
    assert (LEV : dget okey_eqb (level, 0) (dset okey_eqb (level, 0) ([] : list ((Q * side) * entry R))
        (line_cache horiz st0)) = Some []).
    { rewrite (dget_dset okey_eqb okey_t okey_s), okey_r. reflexivity. }
    assert (ALL : forall j, (j < List.length zs)%nat -> (co (nth j zs (pt 0%Q)) <= t2)%Q).
    { intros j Hj. pose proof (nth_In zs (pt 0%Q) Hj) as HI.
      assert (CT : co (pt tm) = tm) by (destruct horiz; reflexivity).
      generalize dependent (nth j zs (pt 0%Q)). intros z HI.
      unfold zs in HI. rewrite app_comm_cons in HI. apply in_app_or in HI as [HI|HI].
      - pose proof (chain_snoc_mono horiz level _ _ _ _ _ HC HI) as M. rewrite CT in M. Lqa.lra.
      - destruct HI as [HI|[]]. rewrite <- HI, CT. exact L2. }
    destruct (start_hit horiz level g delta' mp' n' prec' fuel' t1 t2 st zs
      (increments (phase_step f) zs) (List.length zs - 1)) as (st1 & S1 & _).
    - Lqa.lra.
    - unfold line_cache in *. rewrite F2, cached_store by (rewrite (dget_dset okey_eqb okey_t okey_s), okey_r; discriminate). rewrite okey_r.
      destruct (skey_eqb (t1, StartSide) (tm, EndSide)) eqn:K.
      { apply skey_iff in K as [_ K]. discriminate. }
      rewrite skey_r. reflexivity.
    - apply Nat.le_trans with (List.length zs); [lia|].
      apply (count_prefix _ (pt 0%Q)); [lia|]. intros j Hj. apply Qle_bool_iff, ALL, Hj.
    - apply (last_index_char _ (pt 0%Q)); [lia|apply Qle_bool_iff, ALL; lia|]. intros j H1 H2. lia.
    - rewrite S1. cbn [snd]. f_equal. rewrite firstn_all2; [symmetry; exact E|].
      rewrite increments_length. lia.
  Qed.
End Split.

(** The answer for a line at a level not seen before does not depend on the state. *)
Lemma free_level_fresh f delta mp n prec horiz level fuel t1 t2 st : (t1 < t2)%Q -> level_free st horiz level ->
  snd (sum_line f delta mp n prec fuel 0 (mkpoint horiz level t1) (mkpoint horiz level t2) st) =
  snd (sum_line f delta mp n prec fuel 0 (mkpoint horiz level t1) (mkpoint horiz level t2) fresh_sum).
Proof.
  intros L HF. rewrite !sum_line_as_retrieve by exact L.
  rewrite (retrieve_miss _ _ _ _ _ _ _ _ _ _ _ _ _ _ _ _ _ _ (line_cache horiz st)) by assumption.
  rewrite (retrieve_miss _ _ _ _ _ _ _ _ _ _ _ _ _ _ _ _ _ _ (line_cache horiz fresh_sum));
    [|exact L|destruct horiz; reflexivity].
  destruct (genPhiArr _ _ _ _ _ _ _ _ _ _ _ _); reflexivity.
Qed.
