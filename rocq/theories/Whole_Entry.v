(** * Entries of the internal line caches of the summation estimator and their slices *)
From Coq Require Import Reals Qreals.
From Verif Require Import PyBase Refine_Model Zeros_Spec Sum_Model Sum_Spec Angle_Proofs Cache_Proofs
  Sum_Proofs Sum_Proofs2 Sum_Proofs3 Sum_Proofs4 Sum_Proofs5 Sum_Proofs6 Arg_Spec Arg_Proofs Arg_Proofs2 Arg_Proofs3.
From Coq Require Import Lqa Lra.
Open Scope R_scope.

Lemma last_index_split {A} (p : A -> bool) l : forall m, last_index p l = Some m ->
  exists l1 x l2, l = l1 ++ x :: l2 /\ List.length l1 = m /\ p x = true /\ Forall (fun y => p y = false) l2.
Proof.
  induction l as [|a l IH]; intros m H; [discriminate|]. cbn in H.
  destruct (last_index p l) as [i|] eqn:E.
  - injection H as <-. destruct (IH i eq_refl) as (l1 & x & l2 & -> & <- & H1 & H2).
    exists (a :: l1), x, l2. auto.
  - destruct (p a) eqn:Pa; [|discriminate]. injection H as <-. exists [], a, l. repeat split; auto.
    clear IH. induction l as [|b l IH]; [constructor|]. cbn in E. destruct (last_index p l); [discriminate|].
    destruct (p b) eqn:Pb; [discriminate|]. constructor; auto.
Qed.

Lemma first_index_split {A} (p : A -> bool) l : forall m, first_index p l = Some m ->
  exists l1 x l2, l = l1 ++ x :: l2 /\ List.length l1 = m /\ p x = true /\ Forall (fun y => p y = false) l1.
Proof.
  induction l as [|a l IH]; intros m H; [discriminate|]. cbn in H.
  destruct (p a) eqn:Pa.
  - injection H as <-. exists [], a, l. auto.
  - destruct (first_index p l) as [i|] eqn:E; [|discriminate]. injection H as <-.
    destruct (IH i eq_refl) as (l1 & x & l2 & -> & <- & H1 & H2). exists (a :: l1), x, l2. auto.
Qed.
Lemma first_index_none {A} (p : A -> bool) l : first_index p l = None -> Forall (fun y => p y = false) l.
Proof.
  induction l as [|a l IH]; intro H; [constructor|]. cbn in H. destruct (p a) eqn:Pa; [discriminate|].
  destruct (first_index p l); [discriminate|]. constructor; auto.
Qed.

Lemma increments_first {A} (g : cplx -> cplx -> A) l : forall k, increments g (firstn (S k) l) = firstn k (increments g l).
Proof.
  induction l as [|a l IH]; intro k; [destruct k; reflexivity|]. destruct l as [|b l]; [destruct k; reflexivity|].
  destruct k as [|k]; [reflexivity|].
  change (increments g (firstn (S (S k)) (a :: b :: l))) with (g a b :: increments g (firstn (S k) (b :: l))).
  rewrite IH. reflexivity.
Qed.
Lemma increments_skip {A} (g : cplx -> cplx -> A) k : forall l, increments g (skipn k l) = skipn k (increments g l).
Proof.
  induction k as [|k IH]; intro l; [reflexivity|]. destruct l as [|a l]; [reflexivity|]. cbn [skipn].
  destruct l as [|b l]; [cbn; destruct k; reflexivity|]. rewrite IH. reflexivity.
Qed.
Lemma chain_prefix {A} (P : A -> A -> Prop) l1 : forall l2, chain P (l1 ++ l2) -> chain P l1.
Proof.
  induction l1 as [|a l1 IH]; intros l2 H; [exact I|]. destruct l1 as [|b l1]; [exact I|].
  destruct H as [H1 H2]. split; [exact H1|]. exact (IH l2 H2).
Qed.
Lemma chain_suffix {A} (P : A -> A -> Prop) l1 : forall l2, chain P (l1 ++ l2) -> chain P l2.
Proof.
  induction l1 as [|a l1 IH]; intros l2 H; [exact H|]. apply IH. cbn [app] in H.
  destruct (l1 ++ l2); [exact I|]. apply H.
Qed.
Lemma chain_join {A} (P : A -> A -> Prop) l1 a b l2 : chain P (l1 ++ a :: b :: l2) -> P a b.
Proof. intro H. apply chain_suffix in H. apply H. Qed.

Lemma last_default {A} (l : list A) x d d' : last (x :: l) d = last (x :: l) d'.
Proof. revert x. induction l as [|y l IH]; intro x; [reflexivity|]. apply (IH y). Qed.
Lemma last_app_cons {A} (l1 : list A) x l2 d : last (l1 ++ x :: l2) d = last (x :: l2) d.
Proof.
  induction l1 as [|y l1 IH]; [reflexivity|]. cbn [app]. rewrite <- IH. destruct l1; reflexivity.
Qed.

Section Entry.
  Variables (f : cplx -> cR) (zeros : list point) (L : R) (D : rect) (theta : cplx -> R).
  Hypothesis f_proper : forall z z', ceq z z' -> f z = f z'.
  Hypothesis theta_lip : forall z z', in_rect D z -> in_rect D z' ->
       Rabs (theta z' - theta z) <= L * (Rabs (Q2R (re z' - re z)) + Rabs (Q2R (im z' - im z))).
  Variable eta : R.
  Hypothesis eta_small : eta < PI.
  Variable g : Q.

  Notation Th := (Theta zeros theta).
  Notation calm := (calm f zeros D theta eta).
  Notation fine := (fine f zeros D theta eta).
  Notation calm_step := (calm_step f zeros D theta eta).

  Definition short (h : bool) (z z' : cplx) : Prop := (coord_of h z' - coord_of h z <= g)%Q.

  (** An entry that covers [a, b]: samples of this range, possibly with the increment to one
      sample beyond [b]. *)
  Definition valid (h : bool) (l a b : Q) (v : entry R) : Prop :=
    exists pre zl ext, fst v = pre ++ [zl] /\ snd v = increments (phase_step f) (pre ++ zl :: ext) /\
      chain (calm_step h l) (pre ++ zl :: ext) /\ chain (short h) (pre ++ zl :: ext) /\
      (other_of h zl == l)%Q /\ calm h l a (coord_of h (hd zl pre)) /\ (coord_of h zl <= b)%Q /\
      ((ext = [] /\ calm h l (coord_of h zl) b /\ (b - coord_of h zl <= g)%Q) \/
       exists z', ext = [z'] /\ (b <= coord_of h z')%Q).

  Lemma valid_sum h l a b v : valid h l a b v -> Rabs (Rsum (snd v) - (Th h l b - Th h l a)) <= 2 * eta.
  Proof.
    intros (pre & zl & ext & E1 & E2 & C & _ & HL & CA & HB & HE). rewrite E2.
    assert (HA : Rabs (Th h l (coord_of h (hd zl pre)) - Th h l a) <= eta).
    { destruct CA as (CA1 & _ & _ & _ & CA). apply CA; Lqa.lra. }
    assert (HBB : Rabs (Th h l (coord_of h (last (zl :: ext) zl)) - Th h l b) <= eta).
    { destruct HE as [(-> & HC & _)|(z' & -> & HZ)]; cbn [last].
      - destruct HC as (CB1 & _ & _ & _ & CB). rewrite Rabs_minus_sym. apply CB; Lqa.lra.
      - apply chain_join in C. destruct C as (_ & _ & _ & (_ & _ & _ & _ & CB)). apply CB; Lqa.lra. }
    assert (S : Rsum (increments (phase_step f) (pre ++ zl :: ext)) =
      Th h l (coord_of h (last (zl :: ext) zl)) - Th h l (coord_of h (hd zl pre))).
    { destruct pre as [|y pre]; cbn [app hd] in *.
      - apply (calm_chain_sum f zeros D theta f_proper eta eta_small h l ext zl C). intros _. exact HL.
      - rewrite (calm_chain_sum f zeros D theta f_proper eta eta_small h l (pre ++ zl :: ext) y C)
          by (intro N; destruct pre; discriminate).
        f_equal. f_equal. f_equal. rewrite app_comm_cons. rewrite (last_app_cons (y :: pre)). apply last_default. }
    rewrite S.
    replace (_ - _ - _) with ((Th h l (coord_of h (last (zl :: ext) zl)) - Th h l b) -
      (Th h l (coord_of h (hd zl pre)) - Th h l a)) by ring.
    unfold Rminus at 1. eapply Rle_trans; [apply Rabs_triang|]. rewrite Rabs_Ropp. lra.
  Qed.

  Lemma valid_eq h l l' a a' b b' v : (l == l')%Q -> (a == a')%Q -> (b == b')%Q -> valid h l a b v -> valid h l' a' b' v.
  Proof.
    intros El Ea Eb (pre & zl & ext & E1 & E2 & C & G & HL & CA & HB & HE).
    exists pre, zl, ext. split; [exact E1|]. split; [exact E2|]. split.
    { revert C. apply chain_weaken. intros z z' (S1 & S2 & S3 & S4). split; [Lqa.lra|]. split; [Lqa.lra|]. split; [exact S3|].
      revert S4. apply (calm_eq f zeros L D theta f_proper theta_lip eta); [exact El|reflexivity|reflexivity]. }
    split; [exact G|]. split; [Lqa.lra|]. split.
    { revert CA. apply (calm_eq f zeros L D theta f_proper theta_lip eta); [exact El|exact Ea|reflexivity]. }
    split; [Lqa.lra|]. destruct HE as [(-> & HC & HG)|(z' & -> & HZ)].
    - left. split; [reflexivity|]. split; [|Lqa.lra].
      revert HC. apply (calm_eq f zeros L D theta f_proper theta_lip eta); [exact El|reflexivity|exact Eb].
    - right. exists z'. split; [reflexivity|Lqa.lra].
  Qed.

  (** Samples are in increasing order. *)
  Lemma slice_start h l a b b' v m : valid h l a b v -> (b' <= b)%Q ->
    last_index (fun z => Qle_bool (coord_of h z) b') (fst v) = Some m ->
    valid h l a b' (firstn (S m) (fst v), firstn (S m) (snd v)).
  Proof.
    intros (pre & zl & ext & E1 & E2 & C & G & HL & CA & HB & HE) Hb HM.
    rewrite E1 in HM. destruct (last_index_split _ _ _ HM) as (l1 & x & l2 & E & <- & Hx & H2).
    apply Qle_bool_iff in Hx. rewrite E1, E, E2.
    assert (E' : pre ++ zl :: ext = l1 ++ x :: l2 ++ ext).
    { change (zl :: ext) with ([zl] ++ ext). rewrite app_assoc, E, <- app_assoc. reflexivity. }
    rewrite E' in *. rewrite <- increments_first.
    assert (F1 : firstn (S (List.length l1)) (l1 ++ x :: l2) = l1 ++ [x]).
    { rewrite firstn_app, firstn_all2 by lia. replace (S (List.length l1) - List.length l1)%nat with 1%nat by lia. reflexivity. }
    assert (F2 : firstn (S (S (List.length l1))) (l1 ++ x :: l2 ++ ext) = l1 ++ x :: firstn 1 (l2 ++ ext)).
    { rewrite firstn_app, firstn_all2 by lia. replace (S (S (List.length l1)) - List.length l1)%nat with 2%nat by lia. reflexivity. }
    rewrite F1, F2. exists l1, x, (firstn 1 (l2 ++ ext)). cbn [fst snd].
    split; [reflexivity|]. split; [reflexivity|].
    assert (PF : l1 ++ x :: l2 ++ ext = (l1 ++ x :: firstn 1 (l2 ++ ext)) ++ skipn 1 (l2 ++ ext)).
    { rewrite <- app_assoc. cbn [app]. f_equal. f_equal. symmetry. apply (firstn_skipn 1). }
    split; [rewrite PF in C; apply chain_prefix in C; exact C|].
    split; [rewrite PF in G; apply chain_prefix in G; exact G|].
    assert (HD : hd zl pre = hd x l1).
    { destruct pre as [|y pre], l1 as [|y' l1]; cbn in *; congruence. }
    destruct l2 as [|z' l2].
    - (* the whole entry *)
      assert (pre = l1 /\ zl = x) as [-> ->] by (apply app_inj_tail; exact E).
      split; [exact HL|]. split; [exact CA|]. split; [exact Hx|]. cbn [app].
      destruct HE as [(-> & HC & HG)|(z' & -> & HZ)].
      + left. split; [reflexivity|]. split; [|Lqa.lra].
        revert HC. intro HC. apply (calm_sub f zeros D theta eta _ _ _ _ _ _ HC); Lqa.lra.
      + right. exists z'. split; [reflexivity|Lqa.lra].
    - inversion H2 as [|? ? N _]; subst. pose proof (chain_join _ _ _ _ _ C) as (S1 & _).
      split; [exact S1|]. split; [rewrite <- HD; exact CA|]. split; [exact Hx|].
      right. exists z'. split; [reflexivity|].
      apply Qleb_false in N. Lqa.lra.
  Qed.

  Lemma slice_end h l a b a' v m : valid h l a b v -> (a <= a')%Q ->
    first_index (fun z => Qle_bool a' (coord_of h z)) (fst v) = Some m ->
    valid h l a' b (skipn m (fst v), skipn m (snd v)).
  Proof.
    intros (pre & zl & ext & E1 & E2 & C & G & HL & CA & HB & HE) Ha HM.
    rewrite E1 in HM. destruct (first_index_split _ _ _ HM) as (l1 & x & l2 & E & <- & Hx & H2).
    apply Qle_bool_iff in Hx. rewrite E1, E2.
    assert (SP : exists pre', pre = l1 ++ pre' /\ x :: l2 = pre' ++ [zl]).
    { destruct l2 as [|y l2] using rev_ind.
      - apply app_inj_tail in E as [-> ->]. exists []. split; [symmetry; apply app_nil_r|reflexivity].
      - rewrite app_comm_cons, app_assoc in E. apply app_inj_tail in E as [-> ->]. exists (x :: l2). split; reflexivity. }
    destruct SP as (pre' & -> & SP). clear E.
    assert (K : forall t : list cplx, skipn (List.length l1) ((l1 ++ pre') ++ t) = pre' ++ t).
    { intro t. rewrite <- app_assoc, skipn_app, skipn_all, Nat.sub_diag. reflexivity. }
    rewrite <- increments_skip, !K. exists pre', zl, ext. cbn [fst snd].
    rewrite <- app_assoc in C, G.
    split; [reflexivity|]. split; [reflexivity|]. split; [apply chain_suffix in C; exact C|].
    split; [apply chain_suffix in G; exact G|]. split; [exact HL|]. split; [|split; [exact HB|exact HE]].
    assert (HX : hd zl pre' = x) by (destruct pre' as [|y pre']; cbn in *; congruence).
    rewrite HX. destruct l1 as [|y l1] using rev_ind.
    - cbn [app] in CA. rewrite HX in CA. apply (calm_sub f zeros D theta eta _ _ _ _ _ _ CA); Lqa.lra.
    - clear IHl1. apply Forall_app in H2 as [_ H2]. inversion H2 as [|? ? N _]; subst.
      apply Qleb_false in N.
      assert (J : calm_step h l y (hd zl pre')).
      { destruct pre' as [|y' pre']; cbn [app hd] in *; rewrite <- app_assoc in C; apply (chain_join _ l1 _ _ _ C). }
      destruct J as (_ & _ & _ & J). apply (calm_sub f zeros D theta eta _ _ _ _ _ _ J); Lqa.lra.
  Qed.

  (** No sample beyond [a']: then [a'] is close to the end. *)
  Lemma slice_missing h l a b a' v : valid h l a b v ->
    first_index (fun z => Qle_bool a' (coord_of h z)) (fst v) = None -> (b - a' < g)%Q.
  Proof.
    intros (pre & zl & ext & E1 & E2 & C & G & HL & CA & HB & HE) HN.
    apply first_index_none in HN. rewrite E1 in HN. apply Forall_app in HN as [_ HN].
    inversion HN as [|? ? N _]; subst. apply Qleb_false in N.
    destruct HE as [(-> & HC & HG)|(z' & -> & HZ)]; [Lqa.lra|].
    apply chain_join in G. unfold short in G. Lqa.lra.
  Qed.

  Variables (delta : R) (mp : Q) (n : nat) (prec : Z * Z) (fuel : nat).
  Hypothesis delta_pos : 0 < delta.
  Hypothesis n_big : (2 <= n)%nat.
  Hypothesis fuel_big : (100 * n + 3 <= fuel)%nat.

  Lemma fine_valid h l a b : fine n h l a b -> ((b - a) / inject_Z (Z.of_nat (n - 1)) <= g)%Q ->
    exists zs phis, gen_phi f delta mp n prec fuel 0 (mkpoint h l a) (mkpoint h l b) = Gen zs phis [] /\
      valid h l a b (zs, phis).
  Proof.
    intros HF Hg. destruct (fine_generates f zeros D theta f_proper eta delta mp n prec fuel
      delta_pos n_big fuel_big h l a b HF) as (mid & G & C & S).
    do 2 eexists. split; [exact G|]. exists (mkpoint h l a :: mid), (mkpoint h l b), [].
    assert (Ca : coord_of h (mkpoint h l a) = a) by (destruct h; reflexivity).
    assert (Cb : coord_of h (mkpoint h l b) = b) by (destruct h; reflexivity).
    cbn [fst snd app hd]. rewrite Ca, Cb. split; [reflexivity|]. split; [reflexivity|]. split; [exact C|].
    split; [revert S; apply chain_weaken; unfold short; intros; Lqa.lra|].
    split; [destruct h; reflexivity|]. destruct HF as [Hab HF].
    assert (Hh : (0 < (b - a) / inject_Z (Z.of_nat (n - 1)))%Q).
    { apply chunk; assumption. }
    split; [apply HF; Lqa.lra|]. split; [Lqa.lra|].
    left. split; [reflexivity|]. split; [apply HF; Lqa.lra|]. Lqa.lra.
  Qed.

  (** ** One request for a line *)
  Definition hit (h : bool) (l t1 t2 l' t : Q) (s : side) : bool :=
    Qeq_bool l' l && (match s with StartSide => Qeq_bool t t1 | EndSide => Qeq_bool t t2 end).

  Lemma cached_new h l t1 t2 v (c : lcache R) l' t s : dget okey_eqb (l, 0%Z) c <> None ->
    cached (storeCache l 0 t1 t2 v c) l' 0 t s = if hit h l t1 t2 l' t s then Some v else cached c l' 0 t s.
  Proof.
    intro H. rewrite cached_store by exact H. unfold hit, okey_eqb, skey_eqb. cbn [fst snd Z.eqb].
    rewrite andb_true_r. destruct (Qeq_bool l' l); [|reflexivity].
    destruct s; cbn [side_eqb]; rewrite ?andb_true_r, ?andb_false_r; cbn [andb]; destruct (Qeq_bool _ _); reflexivity.
  Qed.

  Lemma request_line h l t1 t2 st : fine n h l t1 t2 -> ((t2 - t1) / inject_Z (Z.of_nat (n - 1)) <= g)%Q ->
    (forall v, cached (line_cache h st) l 0 t1 StartSide = Some v -> exists b, (t2 <= b)%Q /\ valid h l t1 b v) ->
    (forall v, cached (line_cache h st) l 0 t2 EndSide = Some v -> exists a, (a <= t1)%Q /\ valid h l a t2 v) ->
    (exists st' p v, sum_line f delta mp n prec fuel 0 (mkpoint h l t1) (mkpoint h l t2) st = (st', SumOk [] p) /\
       Rabs (p - (Th h l t2 - Th h l t1)) <= 2 * eta /\ valid h l t1 t2 v /\
       other_cache h st' = other_cache h st /\
       forall l' t s, cached (line_cache h st') l' 0 t s =
         if hit h l t1 t2 l' t s then Some v else cached (line_cache h st) l' 0 t s) \/
    (h = false /\ (t2 - t1 < g)%Q /\
     sum_line f delta mp n prec fuel 0 (mkpoint h l t1) (mkpoint h l t2) st = (st, SumErr IndexError)).
  Proof.
    intros HF Hg HS HEd. assert (Ht : (t1 < t2)%Q) by apply HF.
    rewrite sum_line_as_retrieve by exact Ht.
    assert (FIN : forall c v (sg : R), valid h l t1 t2 v -> dget okey_eqb (l, 0%Z) c <> None ->
      (forall l' t s, cached c l' 0 t s = cached (line_cache h st) l' 0 t s) ->
      exists st' p v', (if h then mkSum (storeCache l 0 t1 t2 v c) (vertical st)
                        else mkSum (horizontal st) (storeCache l 0 t1 t2 v c), SumOk [] (Rsum (snd v))) = (st', SumOk [] p) /\
       Rabs (p - (Th h l t2 - Th h l t1)) <= 2 * eta /\ valid h l t1 t2 v' /\
       other_cache h st' = other_cache h st /\
       forall l' t s, cached (line_cache h st') l' 0 t s =
         if hit h l t1 t2 l' t s then Some v' else cached (line_cache h st) l' 0 t s).
    { intros c v _ HV HD HC. do 2 eexists. exists v. split; [reflexivity|].
      split; [apply valid_sum, HV|]. split; [exact HV|]. split; [destruct h; reflexivity|].
      intros l' t s. rewrite <- HC.
      replace (line_cache h _) with (storeCache l 0 t1 t2 v c) by (destruct h; reflexivity).
      apply cached_new, HD. }
    destruct (fine_valid h l t1 t2 HF Hg) as (zs & phis & GEN & GV). unfold gen_phi in GEN.
    unfold retrieveCached.
    assert (Qltb t1 t2 = true) as -> by (apply Qltb_true, Ht).
    assert (Qle_bool t1 t2 = true) as -> by (apply Qle_bool_iff; Lqa.lra).
    rewrite GEN. unfold cached in HS, HEd.
    destruct (dget okey_eqb (l, 0%Z) (line_cache h st)) as [d|] eqn:DL.
    2:{ left. apply (FIN _ (zs, phis) 0 GV).
        - rewrite (dget_dset okey_eqb okey_t okey_s), okey_r. discriminate.
        - intros l' t s. unfold cached. rewrite (dget_dset okey_eqb okey_t okey_s).
          destruct (okey_eqb (l', 0%Z) (l, 0%Z)) eqn:K; [|reflexivity].
          rewrite (dget_cong okey_eqb okey_t okey_s _ _ (line_cache h st) K), DL. reflexivity. }
    assert (DL' : dget okey_eqb (l, 0%Z) (line_cache h st) <> None) by congruence.
    pose proof (FIN (line_cache h st) (zs, phis) 0 GV DL' (fun _ _ _ => eq_refl)) as GENERATE.
    destruct (dget skey_eqb (t1, StartSide) d) as [v|] eqn:DS.
    - destruct (HS v eq_refl) as (b & Hb & HV).
      destruct (Nat.ltb _ 3) eqn:CW; [left; exact GENERATE|].
      destruct (last_index _ (fst v)) as [m|] eqn:LI.
      + left. apply (FIN _ (firstn (S m) (fst v), firstn (S m) (snd v)) 0); [|exact DL'|reflexivity].
        apply (slice_start h l t1 b t2 v m HV Hb LI).
      + exfalso. apply Nat.ltb_ge in CW. apply (count_last (fun z => Qle_bool (coord_of h z) t2) (fst v)); [lia|exact LI].
    - destruct (dget skey_eqb (t2, EndSide) d) as [v|] eqn:DE; [|left; exact GENERATE].
      destruct (HEd v eq_refl) as (a & Ha & HV).
      destruct (Nat.ltb _ 3) eqn:CW; [left; exact GENERATE|].
      destruct (first_index _ (fst v)) as [m|] eqn:FI.
      + left. apply (FIN _ (skipn m (fst v), skipn m (snd v)) 0); [|exact DL'|reflexivity].
        apply (slice_end h l a t2 t1 v m HV Ha FI).
      + pose proof (slice_missing h l a t2 t1 v HV FI) as SM.
        destruct h.
        * exfalso. apply Nat.ltb_ge in CW. apply (count_first (fun z => Qle_bool t1 (re z)) (fst v)); [|exact FI].
          unfold horizontal_end_test in CW. lia.
        * right. split; [reflexivity|]. split; [exact SM|reflexivity].
  Qed.
End Entry.
