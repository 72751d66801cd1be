(** * Proofs about the estimator cache *)
From Verif Require Import PyBase Poly_Model Refine_Model Cache_Model Cache_Spec.
Open Scope Z_scope.

(** ** Dictionaries whose key test is merely an equivalence *)
Section Dict.
  Context {K V : Type} (eqb : K -> K -> bool).
  Hypothesis eqb_r : forall a, eqb a a = true.
  Hypothesis eqb_t : forall a b c, eqb a b = true -> eqb b c = true -> eqb a c = true.
  Hypothesis eqb_s : forall a b, eqb a b = eqb b a.

  Lemma eqb_cong a b c : eqb a b = true -> eqb a c = eqb b c.
  Proof.
    intro H. destruct (eqb b c) eqn:E.
    - eapply eqb_t; eauto.
    - destruct (eqb a c) eqn:F; [|reflexivity].
      rewrite eqb_s in H. rewrite <- E. symmetry. eapply eqb_t; eauto.
  Qed.

  Lemma dget_dset k k' (v : V) d :
    dget eqb k (dset eqb k' v d) = if eqb k k' then Some v else dget eqb k d.
  Proof.
    induction d as [|[q w] d IH]; cbn; [reflexivity|].
    destruct (eqb k' q) eqn:E; cbn.
    - rewrite (eqb_s k k'), (eqb_cong _ _ k E), (eqb_s q k). destruct (eqb k q); reflexivity.
    - rewrite IH. destruct (eqb k q) eqn:F; [|reflexivity].
      destruct (eqb k k') eqn:G; [|reflexivity].
      rewrite (eqb_cong _ _ q G), E in F. discriminate.
  Qed.

  Lemma dget_ddel k k' (d : list (K * V)) :
    dget eqb k (ddel eqb k' d) = if eqb k k' then None else dget eqb k d.
  Proof.
    induction d as [|[q w] d IH]; cbn; [destruct (eqb k k'); reflexivity|].
    destruct (eqb k' q) eqn:E; cbn.
    - rewrite IH. destruct (eqb k k') eqn:G; [reflexivity|].
      rewrite (eqb_s k q), <- (eqb_cong _ _ k E), (eqb_s k' k), G. reflexivity.
    - rewrite IH. destruct (eqb k q) eqn:F; [|reflexivity].
      destruct (eqb k k') eqn:G; [|reflexivity].
      rewrite (eqb_cong _ _ q G), E in F. discriminate.
  Qed.

  Lemma dget_cong k k' (d : list (K * V)) : eqb k k' = true -> dget eqb k d = dget eqb k' d.
  Proof.
    intro H. induction d as [|[q w] d IH]; cbn; [reflexivity|].
    rewrite (eqb_cong _ _ q H), IH. reflexivity.
  Qed.
End Dict.

Lemma ceqb_eq a b : ceqb a b = true <-> ceq a b.
Proof.
  unfold ceqb, ceq. rewrite andb_true_iff. rewrite !Qeq_bool_iff. reflexivity.
Qed.

Lemma ceq_dec a b : ceq a b \/ ~ ceq a b.
Proof.
  destruct (ceqb a b) eqn:E; [left; apply ceqb_eq, E|right]. intro H. apply ceqb_eq in H. congruence.
Qed.

Lemma ckey_r a : ckey_eqb a a = true.
Proof. unfold ckey_eqb, ceqb. rewrite !Qeq_bool_refl. reflexivity. Qed.

Lemma ckey_iff a b : ckey_eqb a b = true <-> ceq (fst a) (fst b) /\ ceq (snd a) (snd b).
Proof. unfold ckey_eqb. rewrite andb_true_iff, !ceqb_eq. reflexivity. Qed.

Lemma ceq_refl' a : ceq a a. Proof. split; reflexivity. Qed.
Lemma ceq_sym' a b : ceq a b -> ceq b a. Proof. intros [H I]; split; symmetry; assumption. Qed.
Lemma ceq_trans' a b c : ceq a b -> ceq b c -> ceq a c.
Proof. intros [H I] [J L]; split; etransitivity; eassumption. Qed.

Lemma ckey_t a b c : ckey_eqb a b = true -> ckey_eqb b c = true -> ckey_eqb a c = true.
Proof. rewrite !ckey_iff. intros [A B] [C D]. split; eapply ceq_trans'; eauto. Qed.

Lemma ckey_s a b : ckey_eqb a b = ckey_eqb b a.
Proof.
  apply eq_iff_eq_true. rewrite !ckey_iff. split; intros [A B]; split; apply ceq_sym'; assumption.
Qed.

(** ** The cache as a finite map *)
Lemma Zeqb_t a b c : Z.eqb a b = true -> Z.eqb b c = true -> Z.eqb a c = true.
Proof. rewrite !Z.eqb_eq. congruence. Qed.

Lemma lookup_store k a b k' a' b' v c :
  ec_lookup k a b (ec_store k' a' b' v c) =
  if same_key k k' a a' b b' then Some v else ec_lookup k a b c.
Proof.
  unfold ec_lookup, ec_store, same_key. cbn [ec_map].
  destruct (dget Z.eqb k' (ec_map c)) as [oc|] eqn:E.
  - rewrite (dget_dset Z.eqb Zeqb_t Z.eqb_sym).
    destruct (Z.eqb_spec k k') as [->|N]; [|reflexivity].
    rewrite E, (dget_dset ckey_eqb ckey_t ckey_s). reflexivity.
  - rewrite (dget_dset Z.eqb Zeqb_t Z.eqb_sym).
    destruct (Z.eqb_spec k k') as [->|N]; [|reflexivity].
    rewrite E. cbn [dget]. unfold ckey_eqb. cbn [fst snd andb].
    destruct (ceqb a a' && ceqb b b'); reflexivity.
Qed.

Lemma lookup_remove k a b k' a' b' c :
  ec_lookup k a b (ec_remove k' a' b' c) =
  if same_key k k' a a' b b' then None else ec_lookup k a b c.
Proof.
  unfold ec_lookup, ec_remove, same_key.
  destruct (dget Z.eqb k' (ec_map c)) as [oc|] eqn:E; cbn [ec_map].
  - rewrite (dget_dset Z.eqb Zeqb_t Z.eqb_sym).
    destruct (Z.eqb_spec k k') as [->|N]; [|reflexivity].
    rewrite E, (dget_ddel ckey_eqb ckey_t ckey_s). reflexivity.
  - destruct (Z.eqb_spec k k') as [->|N]; [|reflexivity].
    rewrite E. destruct (_ && _); reflexivity.
Qed.

Lemma lookup_reset k a b c : ec_lookup k a b (ec_reset c) = None.
Proof. reflexivity. Qed.

Lemma lookup_retrieve d k' a' b' k a b c :
  ec_lookup k a b (fst (ec_retrieve d k' a' b' c)) = ec_lookup k a b c.
Proof. destruct d; reflexivity. Qed.

Lemma lookup_cong k a b a' b' c : ceq a a' -> ceq b b' -> ec_lookup k a b c = ec_lookup k a' b' c.
Proof.
  intros H I. unfold ec_lookup. destruct (dget Z.eqb k (ec_map c)); [|reflexivity].
  apply (dget_cong ckey_eqb ckey_t ckey_s). apply ckey_iff. split; assumption.
Qed.

Lemma cache_run_snoc h o : cache_run (h ++ [o]) = cache_step (cache_run h) o.
Proof. unfold cache_run. rewrite fold_left_app. reflexivity. Qed.

Lemma cache_is_map h k a b : ec_lookup k a b (cache_run h) = latest (rev h) k a b.
Proof.
  induction h as [|o h IH] using rev_ind; [reflexivity|].
  rewrite cache_run_snoc, rev_app_distr. cbn [rev app].
  destruct o as [k' a' b' v|d k' a' b'|k' a' b'|]; cbn [cache_step latest].
  - rewrite lookup_store, IH. reflexivity.
  - rewrite lookup_retrieve. exact IH.
  - rewrite lookup_remove, IH. reflexivity.
  - reflexivity.
Qed.

Lemma retrieve_value h d k a b :
  snd (ec_retrieve d k a b (cache_run h)) = latest (rev h) k a b.
Proof. cbn. apply cache_is_map. Qed.

Lemma store_counters k a b v c :
  ec_hits (ec_store k a b v c) = ec_hits c /\ ec_misses (ec_store k a b v c) = ec_misses c.
Proof. split; reflexivity. Qed.

Lemma remove_counters k a b c :
  ec_hits (ec_remove k a b c) = ec_hits c /\ ec_misses (ec_remove k a b c) = ec_misses c.
Proof. unfold ec_remove. destruct (dget _ _ _); split; reflexivity. Qed.

Lemma cache_counters h :
  ec_hits (cache_run h) = nonzero_finds (rev h) /\
  ec_hits (cache_run h) + ec_misses (cache_run h) = debug_retrieves (since_reset (rev h)).
Proof.
  induction h as [|o h IH] using rev_ind; [split; reflexivity|].
  rewrite cache_run_snoc, rev_app_distr. cbn [rev app].
  destruct IH as [I1 I2].
  destruct o as [k' a' b' v|d k' a' b'|k' a' b'|]; cbn [cache_step nonzero_finds since_reset].
  - destruct (store_counters k' a' b' v (cache_run h)) as [-> ->].
    unfold debug_retrieves in *. cbn [filter]. split; assumption.
  - destruct d; cbn [ec_retrieve fst ec_hits ec_misses].
    + rewrite (cache_is_map h). unfold debug_retrieves in *. cbn [filter List.length].
      rewrite Nat2Z.inj_succ, <- I2, <- I1. unfold truthy.
      destruct (latest (rev h) k' a' b') as [v|]; [destruct (ceqb v c0)|]; cbn [negb]; lia.
    + unfold debug_retrieves in *. cbn [filter]. split; assumption.
  - destruct (remove_counters k' a' b' (cache_run h)) as [-> ->].
    unfold debug_retrieves in *. cbn [filter]. split; assumption.
  - split; reflexivity.
Qed.

Lemma dset_nonempty {K V} eqb (k : K) (v : V) d : dset eqb k v d <> [].
Proof. destruct d as [|[q w] d]; cbn; [discriminate|]. destruct (eqb k q); discriminate. Qed.

Lemma cache_dirty h : ec_dirty (cache_run h) = true <-> stores (since_reset (rev h)) > 0.
Proof.
  induction h as [|o h IH] using rev_ind; [cbn; split; [discriminate|lia]|].
  rewrite cache_run_snoc, rev_app_distr. cbn [rev app].
  destruct o as [k' a' b' v|d k' a' b'|k' a' b'|]; cbn [cache_step since_reset].
  - split; intros _.
    + unfold stores. cbn [filter List.length]. lia.
    + unfold ec_dirty, ec_store. cbn [ec_map].
      destruct (dget Z.eqb k' _) as [oc|]; match goal with |- context [dset Z.eqb ?k ?x ?d] =>
        pose proof (dset_nonempty Z.eqb k x d); destruct (dset Z.eqb k x d) end; congruence.
  - unfold stores in *. cbn [filter]. destruct d; exact IH.
  - unfold stores in *. cbn [filter]. rewrite <- IH. unfold ec_remove.
    destruct (dget Z.eqb k' (ec_map (cache_run h))) as [oc|] eqn:E; [|reflexivity].
    unfold ec_dirty. cbn [ec_map].
    destruct (ec_map (cache_run h)) as [|q d]; [discriminate|].
    match goal with |- context [dset Z.eqb ?k ?x ?d] =>
      pose proof (dset_nonempty Z.eqb k x d); destruct (dset Z.eqb k x d) end; [congruence|].
    tauto.
  - cbn. split; [discriminate|lia].
Qed.

(** ** Antisymmetry of stored edge moments (C34) *)
Definition anti (c : ecache) : Prop :=
  forall k a b v, ~ ceq a b -> ec_lookup k a b c = Some v ->
    ec_lookup k b a c = None \/ ec_lookup k b a c = Some (copp v).

Lemma copp_copp v : copp (copp v) = v.
Proof. destruct v as [[a d] [b e]]. unfold copp, Qopp. cbn. rewrite !Z.opp_involutive. reflexivity. Qed.

Lemma same_key_true k k' a a' b b' :
  same_key k k' a a' b b' = true <-> k = k' /\ ceq a a' /\ ceq b b'.
Proof.
  unfold same_key. rewrite !andb_true_iff, Z.eqb_eq, !ceqb_eq. tauto.
Qed.

Lemma anti_store_pair k a b d c : anti c -> anti (ec_store k b a (copp d) (ec_store k a b d c)).
Proof.
  intros H k0 p q v N. rewrite !lookup_store.
  destruct (same_key k0 k p b q a) eqn:E1.
  { apply same_key_true in E1 as (-> & A & B). intros [= <-].
    destruct (same_key k k q b p a) eqn:E2.
    { exfalso. apply same_key_true in E2 as (_ & C & D). apply N.
      eapply ceq_trans'; [exact A|]. apply ceq_sym'. exact C. }
    assert (same_key k k q a p b = true) as ->.
    { apply same_key_true. auto. }
    right. rewrite copp_copp. reflexivity. }
  destruct (same_key k0 k p a q b) eqn:E3.
  { apply same_key_true in E3 as (-> & A & B). intros [= <-].
    assert (same_key k k q b p a = true) as ->.
    { apply same_key_true. auto. }
    right. reflexivity. }
  intro L.
  assert (F1 : same_key k0 k q b p a = false).
  { destruct (same_key k0 k q b p a) eqn:F; [|reflexivity].
    apply same_key_true in F as (F1 & F2 & F3).
    assert (same_key k0 k p a q b = true) by (apply same_key_true; auto). congruence. }
  assert (F2 : same_key k0 k q a p b = false).
  { destruct (same_key k0 k q a p b) eqn:F; [|reflexivity].
    apply same_key_true in F as (G1 & G2 & G3).
    assert (same_key k0 k p b q a = true) by (apply same_key_true; auto). congruence. }
  rewrite F1, F2. apply H; assumption.
Qed.

Lemma anti_remove k a b c : anti c -> anti (ec_remove k a b c).
Proof.
  intros H k0 p q v N. rewrite !lookup_remove.
  destruct (same_key k0 k p a q b); [discriminate|]. intro L.
  destruct (same_key k0 k q a p b); [left; reflexivity|]. apply H; assumption.
Qed.

Lemma anti_lookup c c' : (forall k a b, ec_lookup k a b c' = ec_lookup k a b c) -> anti c -> anti c'.
Proof. intros E H k a b v N. rewrite !E. apply H, N. Qed.

Lemma anti_loop {LS} (line : Z -> cplx -> cplx -> LS -> LS * list cplx * res cplx) debug k es :
  forall phi st, anti (fst st) -> anti (fst (fst (fst (moment_loop line debug k es phi st)))).
Proof.
  induction es as [|[a b] es IH]; intros phi [c s] H; [exact H|].
  cbn [moment_loop fst snd]. destruct (ec_retrieve debug k a b c) as [c1 entry] eqn:R.
  assert (H1 : anti c1).
  { eapply anti_lookup; [|exact H]. intros. pose proof (lookup_retrieve debug k a b k0 a0 b0 c) as L.
    rewrite R in L. exact L. }
  destruct (truthy entry); [apply IH; exact H1|].
  destruct (line k a b s) as [[ls zs] [d|e]]; [|exact H1].
  match goal with |- context [moment_loop line debug k es ?p ?q] =>
    specialize (IH p q); destruct (moment_loop line debug k es p q) as [[st' zs'] v] end.
  cbn [fst snd] in *. apply IH. apply anti_store_pair. exact H1.
Qed.

Lemma use_antisymmetric {LS} (line : Z -> cplx -> cplx -> LS -> LS * list cplx * res cplx) debug h s :
  anti (fst (use_run line debug h s)).
Proof.
  unfold use_run. induction h as [|u h IH] using rev_ind.
  { intros k a b v _ H. discriminate. }
  rewrite fold_left_app. cbn [fold_left].
  destruct u as [k r|k a b|]; cbn [use_step fst].
  - apply anti_loop. exact IH.
  - apply anti_remove. exact IH.
  - intros k a b v _ H. discriminate.
Qed.

(** ** Transparency (C32) *)
Section Pure.
  Context {LS : Type} (line : Z -> cplx -> cplx -> LS -> LS * list cplx * res cplx)
    (value : Z -> cplx -> cplx -> cplx).
  Hypothesis PL : pure_line line value.

  Definition right_cache (c : ecache) : Prop :=
    forall k a b v, ec_lookup k a b c = Some v -> v = value k a b.

  Lemma right_new h m : right_cache (mkCache [] h m).
  Proof. intros k a b v H. discriminate. Qed.

  Lemma right_store k a b c : right_cache c -> right_cache (ec_store k a b (value k a b) c).
  Proof.
    intros H k0 p q v. rewrite lookup_store. destruct (same_key k0 k p a q b) eqn:E.
    - apply same_key_true in E as (-> & A & B). intros [= <-].
      apply (pl_points _ _ PL); apply ceq_sym'; assumption.
    - apply H.
  Qed.

  Lemma right_remove k a b c : right_cache c -> right_cache (ec_remove k a b c).
  Proof.
    intros H k0 p q v. rewrite lookup_remove. destruct (same_key _ _ _ _ _ _); [discriminate|apply H].
  Qed.

  Lemma right_retrieve d k a b c : right_cache c -> right_cache (fst (ec_retrieve d k a b c)).
  Proof. intros H k0 p q v. rewrite lookup_retrieve. apply H. Qed.

  Definition sum_from (k : Z) (es : list ckey) (phi : cplx) : cplx :=
    fold_left (fun phi e => cadd phi (value k (fst e) (snd e))) es phi.

  Lemma loop_right debug k es : forall phi st, right_cache (fst st) ->
    right_cache (fst (fst (fst (moment_loop line debug k es phi st)))) /\
    snd (moment_loop line debug k es phi st) = Ok (sum_from k es phi).
  Proof.
    induction es as [|[a b] es IH]; intros phi [c s] H; [split; [exact H|reflexivity]|].
    cbn [moment_loop fst snd sum_from fold_left].
    pose proof (right_retrieve debug k a b c H) as H1.
    assert (HV : snd (ec_retrieve debug k a b c) = ec_lookup k a b c) by reflexivity.
    destruct (ec_retrieve debug k a b c) as [c1 entry]. cbn [fst snd] in *.
    destruct (truthy entry) eqn:T.
    - destruct entry as [v|]; [|discriminate]. rewrite (H k a b v (eq_sym HV)).
      apply (IH _ (c1, s)), H1.
    - pose proof (pl_result _ _ PL k a b s) as L.
      destruct (line k a b s) as [[ls zs] o]. cbn [snd] in L. subst o.
      match goal with |- context [moment_loop line debug k es ?p ?q] =>
        specialize (IH p q); destruct (moment_loop line debug k es p q) as [[st' zs'] v] end.
      cbn [fst snd] in *. apply IH.
      rewrite <- (pl_swap _ _ PL). apply right_store, right_store, H1.
  Qed.

  Lemma use_right debug h s : right_cache (fst (use_run line debug h s)).
  Proof.
    unfold use_run. induction h as [|u h IH] using rev_ind; [apply right_new|].
    rewrite fold_left_app. cbn [fold_left].
    destruct u as [k r|k a b|]; cbn [use_step fst].
    - apply loop_right. exact IH.
    - apply right_remove. exact IH.
    - apply right_new.
  Qed.

  Lemma cache_transparent debug h s k r :
    snd (cached_moment line debug k r (use_run line debug h s)) = Ok (border_sum value k r).
  Proof. apply loop_right, use_right. Qed.

  Lemma uncached_right k es : forall phi s,
    snd (uncached_loop line k es phi s) = Ok (sum_from k es phi).
  Proof.
    induction es as [|[a b] es IH]; intros phi s; [reflexivity|].
    cbn [uncached_loop sum_from fold_left fst snd].
    pose proof (pl_result _ _ PL k a b s) as L.
    destruct (line k a b s) as [[ls zs] o]. cbn [snd] in L. subst o.
    specialize (IH (cadd phi (value k a b)) ls).
    destruct (uncached_loop line k es (cadd phi (value k a b)) ls) as [[st' zs'] v]. exact IH.
  Qed.
End Pure.

(** ** Two searches whose estimators answer alike behave alike *)
Section Simulation.
  Context {S1 S2 : Type} (E1 : env S1) (E2 : env S2) (R : S1 -> S2 -> Prop)
    (proj : list event -> list event).
  Hypothesis proj_app : forall l l', proj (l ++ l') = proj l ++ proj l'.
  Hypothesis proj_nil : proj [] = [].

  Definition alike {A} (m1 : @M S1 A) (m2 : @M S2 A) : Prop := forall s1 s2, R s1 s2 ->
    R (fst (fst (m1 s1))) (fst (fst (m2 s2))) /\
    proj (snd (fst (m1 s1))) = proj (snd (fst (m2 s2))) /\
    snd (m1 s1) = snd (m2 s2).

  Hypothesis same_secant : e_secant E1 = e_secant E2.
  Hypothesis same_newton : e_newton E1 = e_newton E2.
  Hypothesis same_roots : e_polyroots E1 = e_polyroots E2.
  Hypothesis same_df : e_has_df E1 = e_has_df E2.
  Hypothesis same_prec : e_precision E1 = e_precision E2.
  Hypothesis same_prog : e_progress E1 = e_progress E2.
  Hypothesis same_est : forall k r, alike (calcMoment E1 k r) (calcMoment E2 k r).
  Hypothesis same_rm : forall a b s1 s2, R s1 s2 -> R (e_rm E1 a b s1) (e_rm E2 a b s2).

  Lemma alike_ret {A} (a : A) : alike (ret a) (ret a).
  Proof. intros s1 s2 H. cbn. auto. Qed.
  Lemma alike_raise {A} e : alike (@raise S1 A e) (raise e).
  Proof. intros s1 s2 H. cbn. auto. Qed.
  Lemma alike_fuel {A} : alike (@out_of_fuel S1 A) out_of_fuel.
  Proof. intros s1 s2 H. cbn. auto. Qed.
  Lemma alike_emit l : alike (emit l) (emit l).
  Proof. intros s1 s2 H. cbn. auto. Qed.
  Lemma alike_bind {A B} (m1 : @M S1 A) (m2 : @M S2 A) (k1 : A -> @M S1 B) (k2 : A -> @M S2 B) :
    alike m1 m2 -> (forall a, alike (k1 a) (k2 a)) -> alike (mbind m1 k1) (mbind m2 k2).
  Proof.
    intros Hm Hk s1 s2 H. unfold mbind. specialize (Hm s1 s2 H).
    destruct (m1 s1) as [[t1 l1] o1], (m2 s2) as [[t2 l2] o2]. cbn [fst snd] in Hm.
    destruct Hm as (HR & HL & ->). destruct o2 as [a|e|]; [|cbn; auto|cbn; auto].
    specialize (Hk a t1 t2 HR).
    destruct (k1 a t1) as [[u1 l1'] o1'], (k2 a t2) as [[u2 l2'] o2']. cbn [fst snd] in *.
    destruct Hk as (KR & KL & KO). rewrite !proj_app. repeat split; congruence || auto.
  Qed.
  Lemma alike_seq {A B} (m1 : @M S1 A) (m2 : @M S2 A) (k1 : @M S1 B) (k2 : @M S2 B) :
    alike m1 m2 -> alike k1 k2 -> alike (mseq m1 k1) (mseq m2 k2).
  Proof. intros H K. apply alike_bind; auto. Qed.
  Lemma alike_rm a b : alike (cacheRemove E1 a b) (cacheRemove E2 a b).
  Proof. intros s1 s2 H. cbn. auto. Qed.
  Lemma alike_advance a : alike (advance E1 a) (advance E2 a).
  Proof. unfold advance. rewrite same_prog. apply alike_emit. Qed.

  Ltac al := repeat first
    [ apply alike_seq | apply alike_emit | apply alike_advance | apply alike_rm
    | apply alike_ret | apply alike_raise | apply same_est
    | apply alike_bind; [|let a := fresh in intro a] ].

  Lemma alike_refined r : alike (calculateRefinedMoment E1 r) (calculateRefinedMoment E2 r).
  Proof. unfold calculateRefinedMoment. al. Qed.

  Lemma alike_getRoot r phi : alike (getRootFromRectangle E1 r phi) (getRootFromRectangle E2 r phi).
  Proof. unfold getRootFromRectangle. al. Qed.

  Lemma alike_simple d1 d2 r phi :
    (forall r' phi', alike (d1 r' phi') (d2 r' phi')) ->
    alike (decide_simple E1 d1 r phi) (decide_simple E2 d2 r phi).
  Proof.
    intro Hd. unfold decide_simple, epsRe, epsIm. rewrite same_prec.
    destruct (Qltb phi TWO_PI); [al|].
    destruct (_ && _); [apply alike_getRoot|].
    destruct (Qltb _ _); (apply alike_bind; [apply alike_refined|intro];
      apply alike_seq; [apply Hd|]; apply alike_seq; [apply alike_rm|];
      apply alike_bind; [apply alike_refined|intro]; apply alike_seq; [apply Hd|apply alike_rm]).
  Qed.

  Lemma alike_newton_branch r phi : alike (newton_branch E1 r phi) (newton_branch E2 r phi).
  Proof.
    unfold newton_branch. rewrite same_secant, same_newton, same_df.
    destruct (e_secant E2 _ _) as [z|e].
    - destruct (e_has_df E2); [destruct (e_newton E2 _) as [w|e]|]; al.
      all: destruct e; al.
    - al. destruct e; al.
  Qed.

  Lemma alike_moments n : forall k r, alike (moments_from E1 k n r) (moments_from E2 k n r).
  Proof.
    induction n as [|n IH]; intros k r; cbn [moments_from]; [apply alike_ret|].
    apply alike_bind; [apply same_est|intro]. apply alike_bind; [apply IH|intro]. apply alike_ret.
  Qed.

  Lemma alike_decide v n : forall r phi, alike (decideRefinement E1 v n r phi) (decideRefinement E2 v n r phi).
  Proof.
    induction n as [|n IH]; intros r phi; cbn [decideRefinement]; [apply alike_fuel|].
    destruct v.
    - apply alike_simple, IH.
    - unfold decide_newton, epsRe, epsIm. rewrite same_prec.
      destruct (_ && _); [apply alike_getRoot|].
      destruct (_ && _); [apply alike_newton_branch|apply alike_simple, IH].
    - unfold decide_poly, epsRe, epsIm. rewrite same_prec, same_df, same_roots.
      destruct (negb _); [apply alike_raise|].
      destruct (_ && _); [apply alike_getRoot|].
      destruct (_ && _); [|apply alike_simple, IH].
      apply alike_bind; [apply alike_moments|]. intro ms.
      destruct (e_polyroots E2 _); al.
  Qed.

  Lemma alike_calcRoots v n r s1 s2 :
    R (if e_dirty E1 s1 then e_reset E1 s1 else s1) (if e_dirty E2 s2 then e_reset E2 s2 else s2) ->
    proj (snd (fst (calcRoots E1 v n r s1))) = proj (snd (fst (calcRoots E2 v n r s2))) /\
    snd (calcRoots E1 v n r s1) = snd (calcRoots E2 v n r s2).
  Proof.
    intro H. unfold calcRoots.
    refine (proj2 (alike_bind _ _ _ _ (same_est 0 r) _ _ _ H)).
    intro m. apply alike_decide.
  Qed.
End Simulation.

(** ** A cached and an uncached search *)
Lemma wcz_app l l' : without_contour_zeros (l ++ l') = without_contour_zeros l ++ without_contour_zeros l'.
Proof. apply filter_app. Qed.

Lemma wcz_zeros zs l : without_contour_zeros (map (fun z => EvRoot (z, 0)) zs ++ l) = without_contour_zeros l.
Proof. rewrite wcz_app. induction zs as [|z zs IH]; [reflexivity|exact IH]. Qed.

Lemma search_transparent {LS} (line : Z -> cplx -> cplx -> LS -> LS * list cplx * res cplx) value
    debug secant newton polyroots has_df precision progress v fuel r c s s' :
  pure_line line value ->
  let E1 := cached_env line debug secant newton polyroots has_df precision progress in
  let E2 := uncached_env line secant newton polyroots has_df precision progress in
  without_contour_zeros (snd (fst (calcRoots E1 v fuel r (c, s)))) =
    without_contour_zeros (snd (fst (calcRoots E2 v fuel r s'))) /\
  snd (calcRoots E1 v fuel r (c, s)) = snd (calcRoots E2 v fuel r s').
Proof.
  intro PL. intros E1 E2.
  apply (alike_calcRoots E1 E2 (fun st _ => right_cache value (fst st)) without_contour_zeros);
    try reflexivity.
  - apply wcz_app.
  - intros k q [c1 s1] s2 H. unfold calcMoment. cbn [E1 E2 cached_env uncached_env e_est fst snd] in *.
    pose proof (loop_right line value PL debug k (edges q) c0 (c1, s1) H) as [L1 L2].
    pose proof (uncached_right line value PL k (edges q) c0 s2) as U.
    unfold cached_moment in *.
    destruct (moment_loop line debug k (edges q) c0 (c1, s1)) as [[st zs] o].
    change (sides q) with (edges q).
    destruct (uncached_loop line k (edges q) c0 s2) as [[st2 zs2] o2].
    cbn [fst snd] in *. subst o o2. split; [exact L1|]. split; [|reflexivity].
    rewrite !wcz_zeros. reflexivity.
  - intros a b [c1 s1] s2 H. cbn. apply right_remove, H.
  - cbn. destruct (ec_dirty c) eqn:D; cbn [fst]; [apply right_new|].
    unfold ec_dirty in D. destruct c as [m h i]. cbn in D. destruct m; [apply right_new|discriminate].
Qed.

(** ** A search does not see what an earlier search cached (C33) *)
Definition same_entries {LS} (a b : ecache * LS) : Prop := ec_map (fst a) = ec_map (fst b) /\ snd a = snd b.

Lemma lookup_same c c' k a b : ec_map c = ec_map c' -> ec_lookup k a b c = ec_lookup k a b c'.
Proof. unfold ec_lookup. intros ->. reflexivity. Qed.

Lemma loop_same {LS} (line : Z -> cplx -> cplx -> LS -> LS * list cplx * res cplx) debug debug' k es :
  forall phi st st', same_entries st st' ->
    same_entries (fst (fst (moment_loop line debug k es phi st)))
                 (fst (fst (moment_loop line debug' k es phi st'))) /\
    snd (fst (moment_loop line debug k es phi st)) = snd (fst (moment_loop line debug' k es phi st')) /\
    snd (moment_loop line debug k es phi st) = snd (moment_loop line debug' k es phi st').
Proof.
  induction es as [|[a b] es IH]; intros phi [c s] [c' s'] [H1 H2]; cbn [fst snd] in *.
  { cbn. repeat split; auto. }
  subst s'. cbn [moment_loop fst snd]. unfold ec_retrieve.
  rewrite (lookup_same c c' k a b H1).
  set (e := ec_lookup k a b c').
  assert (HM : forall (d : bool) (x : ecache), ec_map (if d then mkCache (ec_map x)
     (ec_hits x + (if truthy e then 1 else 0)) (ec_misses x + (if truthy e then 0 else 1)) else x : ecache)
     = ec_map x) by (intros [] x; reflexivity).
  destruct (truthy e) eqn:T; try rewrite T in HM.
  - apply IH. split; [|reflexivity]. cbn [fst]. rewrite !HM. exact H1.
  - destruct (line k a b s) as [[ls zs] [d|x]]; cbn [fst snd].
    + match goal with |- context [moment_loop line debug k es ?p ?q] =>
        match goal with |- context [moment_loop line debug' k es p ?q'] =>
          specialize (IH p q q'); destruct (moment_loop line debug k es p q) as [[st1 zs1] v1];
          destruct (moment_loop line debug' k es p q') as [[st2 zs2] v2] end end.
      cbn [fst snd] in *. destruct IH as (I1 & I2 & I3).
      { split; [|reflexivity]. cbn [fst]. unfold ec_store. cbn [ec_map]. rewrite !HM, H1. reflexivity. }
      repeat split; try apply I1; congruence.
    + unfold same_entries. cbn [fst snd]. rewrite !HM. repeat split; auto.
Qed.

Lemma search_fresh {LS} (line : Z -> cplx -> cplx -> LS -> LS * list cplx * res cplx)
    debug debug' secant newton polyroots has_df precision progress v fuel r c s :
  let E d := cached_env line d secant newton polyroots has_df precision progress in
  snd (fst (calcRoots (E debug) v fuel r (c, s))) = snd (fst (calcRoots (E debug') v fuel r (new_cache, s))) /\
  snd (calcRoots (E debug) v fuel r (c, s)) = snd (calcRoots (E debug') v fuel r (new_cache, s)).
Proof.
  intro E.
  apply (alike_calcRoots (E debug) (E debug') same_entries (fun l => l)); try reflexivity.
  - intros k q st st' H. unfold calcMoment. cbn [E cached_env e_est].
    pose proof (loop_same line debug debug' k (edges q) c0 st st' H) as (L1 & L2 & L3).
    unfold cached_moment.
    destruct (moment_loop line debug k (edges q) c0 st) as [[st1 zs1] o1].
    destruct (moment_loop line debug' k (edges q) c0 st') as [[st2 zs2] o2].
    cbn [fst snd] in *. subst. auto.
  - intros a b [c1 s1] [c2 s2] [H1 H2]. cbn in *. split; [|exact H2]. cbn [fst].
    unfold ec_remove. rewrite H1. destruct (dget _ _ _); [reflexivity|exact H1].
  - cbn. destruct (ec_dirty c) eqn:D; split; cbn; try reflexivity.
    unfold ec_dirty in D. destruct c as [m h i]. cbn in *. destruct m; [reflexivity|discriminate].
Qed.

(** ** Presence of edges, zero entries *)
Lemma loop_keeps {LS} (line : Z -> cplx -> cplx -> LS -> LS * list cplx * res cplx) debug k es :
  forall phi st a b, ec_lookup k a b (fst st) <> None ->
    ec_lookup k a b (fst (fst (fst (moment_loop line debug k es phi st)))) <> None.
Proof.
  induction es as [|[p q] es IH]; intros phi [c s] a b H; [exact H|].
  cbn [moment_loop fst snd] in *. destruct (ec_retrieve debug k p q c) as [c1 entry] eqn:R.
  assert (H1 : ec_lookup k a b c1 <> None).
  { pose proof (lookup_retrieve debug k p q k a b c) as L. rewrite R in L. cbn in L. congruence. }
  destruct (truthy entry); [apply IH; exact H1|].
  destruct (line k p q s) as [[ls zs] [d|e]]; [|exact H1].
  match goal with |- context [moment_loop line debug k es ?x ?y] =>
    specialize (IH x y a b); destruct (moment_loop line debug k es x y) as [[st' zs'] v] end.
  cbn [fst snd] in *. apply IH. rewrite !lookup_store.
  destruct (same_key _ _ _ _ _ _); [discriminate|].
  destruct (same_key _ _ _ _ _ _); [discriminate|]. exact H1.
Qed.

Lemma loop_present {LS} (line : Z -> cplx -> cplx -> LS -> LS * list cplx * res cplx) debug k es :
  forall phi st m, snd (moment_loop line debug k es phi st) = Ok m ->
    forall a b, In (a, b) es -> ec_lookup k a b (fst (fst (fst (moment_loop line debug k es phi st)))) <> None.
Proof.
  induction es as [|[p q] es IH]; intros phi [c s] m HO a b HI; [contradiction|].
  cbn [moment_loop fst snd] in *.
  assert (HL : snd (ec_retrieve debug k p q c) = ec_lookup k p q (fst (ec_retrieve debug k p q c))).
  { rewrite lookup_retrieve. reflexivity. }
  destruct (ec_retrieve debug k p q c) as [c1 entry]. cbn [fst snd] in HL.
  destruct (truthy entry) eqn:T.
  - destruct HI as [HI|HI].
    + injection HI as <- <-. apply loop_keeps. cbn [fst]. rewrite <- HL.
      destruct entry; [discriminate|discriminate T].
    + eapply IH; eauto.
  - destruct (line k p q s) as [[ls zs] [d|e]]; [|discriminate].
    match goal with H : context [moment_loop line debug k es ?x ?y] |- _ =>
      pose proof (loop_keeps line debug k es x y a b) as K;
      specialize (IH x y m); destruct (moment_loop line debug k es x y) as [[st' zs'] v] end.
    cbn [fst snd] in *. specialize (IH HO a b).
    destruct HI as [HI|HI]; [|apply IH; exact HI].
    injection HI as <- <-. apply K. rewrite !lookup_store.
    assert (same_key k k p p q q = true) as ->
      by (apply same_key_true; repeat split; reflexivity).
    destruct (same_key _ _ _ _ _ _); discriminate.
Qed.

Lemma zero_entry_recomputed {LS} (line : Z -> cplx -> cplx -> LS -> LS * list cplx * res cplx) debug k r c s v ls zs e :
  ec_lookup k (x1 r, y1 r) (x2 r, y1 r) c = Some v -> ceq v c0 ->
  line k (x1 r, y1 r) (x2 r, y1 r) s = (ls, zs, Err e) ->
  snd (cached_moment line debug k r (c, s)) = Err e.
Proof.
  intros H HZ HL. unfold cached_moment, edges. cbn [moment_loop fst snd]. unfold ec_retrieve. cbn [fst snd].
  rewrite H. unfold truthy. apply ceqb_eq in HZ. rewrite HZ. cbn [negb]. rewrite HL. reflexivity.
Qed.

Lemma nonzero_entries_used {LS} (line : Z -> cplx -> cplx -> LS -> LS * list cplx * res cplx) debug k es :
  forall phi c s (val : cplx -> cplx -> cplx),
  (forall a b, In (a, b) es -> ec_lookup k a b c = Some (val a b) /\ ~ ceq (val a b) c0) ->
  exists c', moment_loop line debug k es phi (c, s) =
    ((c', s), [], Ok (fold_left (fun p e => cadd p (val (fst e) (snd e))) es phi)) /\ ec_map c' = ec_map c.
Proof.
  induction es as [|[a b] es IH]; intros phi c s val H.
  { exists c. split; reflexivity. }
  cbn [moment_loop fst snd fold_left]. destruct (H a b (or_introl eq_refl)) as [L N].
  assert (T : truthy (Some (val a b)) = true).
  { unfold truthy. destruct (ceqb (val a b) c0) eqn:Z; [apply ceqb_eq in Z; contradiction|reflexivity]. }
  unfold ec_retrieve. rewrite L, T.
  match goal with |- context [moment_loop line debug k es _ (?cc, s)] => set (c1 := cc) end.
  assert (M : ec_map c1 = ec_map c) by (unfold c1; destruct debug; reflexivity).
  destruct (IH (cadd phi (val a b)) c1 s val) as (c' & E1 & E2).
  - intros p q HI. rewrite (lookup_same c1 c k p q M). apply H. right. exact HI.
  - exists c'. rewrite E1. split; [reflexivity|congruence].
Qed.

(** ** Which sides are computed *)
Definition edge_free (e e' : cplx * cplx) : Prop :=
  ~ (ceq (fst e') (fst e) /\ ceq (snd e') (snd e)) /\ ~ (ceq (fst e') (snd e) /\ ceq (snd e') (fst e)).

Lemma loop_sum {LS} (line : Z -> cplx -> cplx -> LS -> LS * list cplx * res cplx) debug k known es :
  ForallOrdPairs edge_free es ->
  forall phi c s, (forall a b, In (a, b) es -> ec_lookup k a b c = known a b) ->
  let out := moment_loop line debug k es phi (c, s) in
  (snd (fst (fst out)), snd (fst out), snd out) = sum_sides line known k es phi s.
Proof.
  induction 1 as [|[a b] es Hh Ht IH]; intros phi c s HK; [reflexivity|].
  cbn [moment_loop sum_sides fst snd]. cbn zeta.
  destruct (ec_retrieve debug k a b c) as [c1 entry] eqn:R.
  assert (E1 : entry = known a b).
  { rewrite <- (HK a b (or_introl eq_refl)). change entry with (snd (c1, entry)). rewrite <- R. reflexivity. }
  assert (L1 : forall p q, ec_lookup k p q c1 = ec_lookup k p q c).
  { intros p q. change c1 with (fst (c1, entry)). rewrite <- R. apply lookup_retrieve. }
  rewrite Forall_forall in Hh.
  assert (G : let '(ls, zs, r0) := line k a b s in
    let out := match r0 with
      | Ok d => let c2 := ec_store k b a (copp d) (ec_store k a b d c1) in
          let '(st', zs', v) := moment_loop line debug k es (cadd phi d) (c2, ls) in (st', zs ++ zs', v)
      | Err e => ((c1, ls), zs, Err e) end in
    (snd (fst (fst out)), snd (fst out), snd out) =
    match r0 with
    | Ok d => let '(s2, zs', v) := sum_sides line known k es (cadd phi d) ls in (s2, zs ++ zs', v)
    | Err e => (ls, zs, Err e)
    end).
  { destruct (line k a b s) as [[ls zs] [d|e]]; cbn zeta; [|reflexivity].
    set (c2 := ec_store k b a (copp d) (ec_store k a b d c1)).
    specialize (IH (cadd phi d) c2 ls).
    assert (HK2 : forall p q, In (p, q) es -> ec_lookup k p q c2 = known p q).
    { intros p q Hin. destruct (Hh _ Hin) as [N1 N2]. cbn [fst snd] in N1, N2. unfold c2. rewrite !lookup_store.
      destruct (same_key k k p b q a) eqn:F1; [apply same_key_true in F1; tauto|].
      destruct (same_key k k p a q b) eqn:F2; [apply same_key_true in F2; tauto|].
      rewrite L1. apply HK. right. exact Hin. }
    specialize (IH HK2). cbn zeta in IH.
    destruct (moment_loop line debug k es (cadd phi d) (c2, ls)) as [[st' zs'] v]. cbn [fst snd] in *.
    rewrite <- IH. reflexivity. }
  assert (HK1 : forall p q, In (p, q) es -> ec_lookup k p q c1 = known p q).
  { intros p q Hin. rewrite L1. apply HK. right. exact Hin. }
  rewrite E1. destruct (known a b) as [v|] eqn:KV; cbn [truthy].
  - change (ceqb v (0, 0)%Q) with (ceqb v c0). destruct (ceqb v c0); cbn [negb].
    + destruct (line k a b s) as [[ls zs] [d|e]]; exact G.
    + exact (IH (cadd phi v) c1 s HK1).
  - destruct (line k a b s) as [[ls zs] [d|e]]; exact G.
Qed.

Lemma sides_free r : (x1 r < x2 r)%Q -> (y1 r < y2 r)%Q -> ForallOrdPairs edge_free (edges r).
Proof.
  intros Hx Hy.
  assert (Nx : ~ (x1 r == x2 r)%Q) by (apply Qlt_not_eq, Hx).
  assert (Ny : ~ (y1 r == y2 r)%Q) by (apply Qlt_not_eq, Hy).
  assert (Nx' : ~ (x2 r == x1 r)%Q) by (intro C; apply Nx; symmetry; exact C).
  assert (Ny' : ~ (y2 r == y1 r)%Q) by (intro C; apply Ny; symmetry; exact C).
  unfold edges. repeat (constructor; try (repeat constructor)).
  all: unfold ceq, re, im; cbn [fst snd]; tauto.
Qed.

Lemma sides_computed {LS} (line : Z -> cplx -> cplx -> LS -> LS * list cplx * res cplx) debug k r c s :
  (x1 r < x2 r)%Q -> (y1 r < y2 r)%Q ->
  let out := cached_moment line debug k r (c, s) in
  (snd (fst (fst out)), snd (fst out), snd out) = sum_sides line (fun a b => ec_lookup k a b c) k (sides r) c0 s.
Proof.
  intros Hx Hy. apply loop_sum; [apply sides_free; assumption|]. reflexivity.
Qed.

