(** * Service locator: proofs *)
From Verif Require Import PyBase Locator_Model Locator_Spec.
Open Scope Z_scope.

Section Proofs.
  Context {T V W : Type}.
  Variable teqb : T -> T -> bool.
  Variable isinst : V -> T -> res bool.
  Variable none : V.
  Hypothesis teqb_eq : forall a b, teqb a b = true <-> a = b.

  Notation try := (@tryResolve T V W teqb isinst none).
  Notation perform := (@perform T V W teqb isinst).
  Notation located := (@located T V W teqb isinst).
  Notation binds := (@bind_arguments T V W).

  Lemma resolve_type depth l t kw w w' v : try depth l t kw w = (w', Ok v) -> isinst v t = Ok true.
  Proof.
    destruct depth as [|n]; [discriminate|]. cbn [tryResolve]. intro H.
    destruct (isinst _ t) as [[]|e] eqn:I; [|clear I|discriminate].
    - injection H as _ <-. exact I.
    - destruct (dget teqb t (transients l)) as [f|]; [|discriminate].
      destruct (binds _ _ _ _) as [w1 [args|e]]; [|discriminate].
      destruct (f_call f args w1) as [w2 [v'|e]]; [|discriminate].
      destruct (isinst v' t) as [[]|e] eqn:I; try discriminate. injection H as _ <-. exact I.
  Qed.

  (** ** Histories *)
  Lemma located_snoc h o : located (h ++ [o]) = fst (perform o (located h)).
  Proof. unfold Locator_Spec.located. rewrite fold_left_app. reflexivity. Qed.

  Lemma sealed_located h : sealed (located h) = sealed_by (rev h).
  Proof.
    induction h as [|o h IH] using rev_ind; [reflexivity|]. rewrite located_snoc, rev_app_distr. cbn [rev app].
    destruct o as [t v|t f| |]; cbn [Locator_Spec.perform sealed_by].
    - unfold registerAsSingleton. destruct (sealed (located h)) eqn:S; [cbn [fst]; congruence|].
      destruct (isinst v t) as [[]|e]; cbn [fst sealed]; congruence.
    - unfold registerAsTransient. destruct (sealed (located h)) eqn:S; cbn [fst sealed]; congruence.
    - unfold seal. destruct (sealed (located h)) eqn:S; cbn [fst sealed]; congruence.
    - reflexivity.
  Qed.

  Lemma teqb_refl t : teqb t t = true. Proof. apply teqb_eq. reflexivity. Qed.

  Lemma dget_dset_t {A} t t' (v : A) d : dget teqb t (dset teqb t' v d) = if teqb t t' then Some v else dget teqb t d.
  Proof.
    destruct (teqb t t') eqn:E.
    - apply teqb_eq in E. subst t'. apply (dget_dset_same teqb teqb_eq).
    - apply (dget_dset_other teqb teqb_eq). intros ->. rewrite teqb_refl in E. discriminate.
  Qed.

  Lemma singletons_located h t : singleton_of teqb (located h) t = latest_singleton teqb isinst (rev h) t.
  Proof.
    induction h as [|o h IH] using rev_ind; [reflexivity|]. rewrite located_snoc, rev_app_distr. cbn [rev app].
    pose proof (sealed_located h) as SL. unfold singleton_of in *.
    destruct o as [t' v|t' f| |]; cbn [Locator_Spec.perform latest_singleton].
    - unfold registerAsSingleton. rewrite <- SL. destruct (sealed (located h)) eqn:S.
      + cbn [fst negb]. rewrite Bool.andb_false_r. exact IH.
      + cbn [negb]. rewrite Bool.andb_true_r. destruct (isinst v t') as [[]|e]; cbn [fst singletons].
        * rewrite Bool.andb_true_r, dget_dset_t, IH. reflexivity.
        * rewrite Bool.andb_false_r. exact IH.
        * rewrite Bool.andb_false_r. exact IH.
    - unfold registerAsTransient. destruct (sealed (located h)); exact IH.
    - unfold seal. destruct (sealed (located h)); exact IH.
    - reflexivity.
  Qed.

  Lemma transients_located h t : transient_of teqb (located h) t = latest_transient teqb (rev h) t.
  Proof.
    induction h as [|o h IH] using rev_ind; [reflexivity|]. rewrite located_snoc, rev_app_distr. cbn [rev app].
    pose proof (sealed_located h) as SL. unfold transient_of in *.
    destruct o as [t' v|t' f| |]; cbn [Locator_Spec.perform latest_transient].
    - unfold registerAsSingleton. destruct (sealed (located h)); [exact IH|]. destruct (isinst v t') as [[]|e]; exact IH.
    - unfold registerAsTransient. rewrite <- SL. destruct (sealed (located h)) eqn:S.
      + cbn [fst negb]. rewrite Bool.andb_false_r. exact IH.
      + cbn [fst negb transients]. rewrite Bool.andb_true_r, dget_dset_t, IH. reflexivity.
    - unfold seal. destruct (sealed (located h)); exact IH.
    - reflexivity.
  Qed.

  Lemma registered_singletons_ok (h : list (lop T V W)) t v : latest_singleton teqb isinst h t = Some v -> isinst v t = Ok true.
  Proof.
    induction h as [|o h IH]; [discriminate|]. destruct o as [t' v'|t' f| |]; cbn [latest_singleton]; try assumption; [|discriminate].
    destruct (teqb t t') eqn:E; [|exact IH]. apply teqb_eq in E. subst t'.
    destruct (negb (sealed_by h)); [|exact IH]. destruct (isinst v' t) as [[]|e] eqn:I; [|exact IH|exact IH].
    cbn. intro H. injection H as <-. exact I.
  Qed.

  (** ** Resolution depends on lookups in the closure only *)
  Lemma binds_ext r r' kw : forall ps w, (forall p w, In p ps -> required p -> r (p_annotation p) w = r' (p_annotation p) w) ->
    binds r kw ps w = binds r' kw ps w.
  Proof.
    induction ps as [|p ps IH]; intros w H; [reflexivity|]. cbn [bind_arguments].
    assert (IH' : forall w, binds r kw ps w = binds r' kw ps w) by (intro; apply IH; intros; apply H; [right|]; assumption).
    destruct (dget String.eqb (p_name p) kw) as [v|]; [rewrite IH'; reflexivity|].
    destruct (p_default p) as [v|] eqn:D; [rewrite IH'; reflexivity|].
    rewrite (H p w (or_introl eq_refl) D). destruct (r' (p_annotation p) w) as [w1 [v|e]]; [|reflexivity].
    rewrite IH'. reflexivity.
  Qed.

  Lemma resolve_frame D l l' : agree_on teqb D l l' -> closed teqb D l ->
    forall depth t kw w, D t -> try depth l t kw w = try depth l' t kw w.
  Proof.
    intros A C. induction depth as [|n IH]; intros t kw w HD; [reflexivity|]. cbn [tryResolve].
    destruct (A t HD) as [A1 A2]. unfold singleton_of, transient_of in A1, A2. rewrite A1, A2.
    destruct (isinst _ t) as [[]|e]; [reflexivity| |reflexivity].
    destruct (dget teqb t (transients l')) as [f|] eqn:F; [|reflexivity].
    rewrite (binds_ext _ (fun t' w' => try n l' t' [] w')); [reflexivity|].
    intros p w' HI HR. apply IH. eapply C; [exact HD|unfold transient_of; rewrite A2; reflexivity|exact HI|exact HR].
  Qed.

  (** ** Sealing *)
  Lemma sealed_ops h' : forall l, sealed l = true -> forallb (fun o => negb (is_clear o)) h' = true ->
    fold_left (fun l o => fst (perform o l)) h' l = l.
  Proof.
    induction h' as [|o h' IH]; intros l S H; [reflexivity|]. cbn in H. apply andb_prop in H as [H1 H2].
    cbn [fold_left]. assert (E : fst (perform o l) = l).
    { destruct o; cbn in *; unfold registerAsSingleton, registerAsTransient, seal; try rewrite S; try reflexivity; discriminate. }
    rewrite E. apply IH; assumption.
  Qed.

  (** ** Argument binding *)
  Lemma binds_result r kw : forall ps w w' args, binds r kw ps w = (w', Ok args) ->
    map fst args = map p_name ps /\
    Forall2 (fun p a =>
      match dget String.eqb (p_name p) kw with
      | Some v => snd a = v
      | None => match p_default p with
                | Some v => snd a = v
                | None => exists w1 w2, r (p_annotation p) w1 = (w2, Ok (snd a))
                end
      end) ps args.
  Proof.
    induction ps as [|p ps IH]; intros w w' args H; cbn [bind_arguments] in H.
    - injection H as <- <-. split; [reflexivity|constructor].
    - destruct (dget String.eqb (p_name p) kw) as [v|] eqn:K.
      + destruct (binds r kw ps w) as [w2 [a2|e]] eqn:B; [|discriminate]. injection H as <- <-.
        destruct (IH _ _ _ B) as [I1 I2]. split; [cbn; rewrite I1; reflexivity|]. constructor; [rewrite K; reflexivity|exact I2].
      + destruct (p_default p) as [v|] eqn:D.
        * destruct (binds r kw ps w) as [w2 [a2|e]] eqn:B; [|discriminate]. injection H as <- <-.
          destruct (IH _ _ _ B) as [I1 I2]. split; [cbn; rewrite I1; reflexivity|]. constructor; [rewrite K, D; reflexivity|exact I2].
        * destruct (r (p_annotation p) w) as [w1 [v|e]] eqn:R; [|discriminate].
          destruct (binds r kw ps w1) as [w2 [a2|e]] eqn:B; [|discriminate]. injection H as <- <-.
          destruct (IH _ _ _ B) as [I1 I2]. split; [cbn; rewrite I1; reflexivity|]. constructor; [|exact I2].
          rewrite K, D. exists w, w1. exact R.
  Qed.

  Lemma binds_fails r kw p e : (forall w, exists w', r (p_annotation p) w = (w', Err e)) -> required p ->
    dget String.eqb (p_name p) kw = None -> forall ps w, In p ps -> exists w' e', binds r kw ps w = (w', Err e').
  Proof.
    intros HE HR HK. induction ps as [|q ps IH]; intros w HI; [contradiction|]. cbn [bind_arguments].
    destruct HI as [->|HI].
    - rewrite HK. unfold required in HR. rewrite HR. destruct (HE w) as [w' ->]. eauto.
    - destruct (dget String.eqb (p_name q) kw) as [v|].
      { destruct (IH w HI) as (w' & e' & ->). cbn. eauto. }
      destruct (p_default q) as [v|].
      { destruct (IH w HI) as (w' & e' & ->). cbn. eauto. }
      destruct (r (p_annotation q) w) as [w1 [v|e1]]; [|eauto].
      destruct (IH w1 HI) as (w' & e' & ->). cbn. eauto.
  Qed.

  Lemma binds_no_result r kw p : (forall w w' v, r (p_annotation p) w <> (w', Ok v)) -> required p ->
    dget String.eqb (p_name p) kw = None -> forall ps w w' args, In p ps -> binds r kw ps w <> (w', Ok args).
  Proof.
    intros HE HR HK. induction ps as [|q ps IH]; intros w w' args HI H; [contradiction|]. cbn [bind_arguments] in H.
    destruct HI as [->|HI].
    - rewrite HK in H. unfold required in HR. rewrite HR in H. destruct (r (p_annotation p) w) as [w1 [v|e]] eqn:R; [|discriminate].
      exact (HE _ _ _ R).
    - assert (STEP : forall w1 v, (let (w2, r2) := binds r kw ps w1 in (w2, bind r2 (fun a => Ok ((p_name q, v) :: a)))) <> (w', Ok args)).
      { intros w1 v. destruct (binds r kw ps w1) as [w2 [a|e]] eqn:B; [|discriminate]. intros _. exact (IH _ _ _ HI B). }
      destruct (dget String.eqb (p_name q) kw) as [v|]; [exact (STEP _ _ H)|].
      destruct (p_default q) as [v|]; [exact (STEP _ _ H)|].
      destruct (r (p_annotation q) w) as [w1 [v|e]]; [exact (STEP _ _ H)|discriminate].
  Qed.

  Lemma resolve_binding depth l t kw w w' v : singleton_of teqb l t = None -> isinst none t = Ok false ->
    try (S depth) l t kw w = (w', Ok v) ->
    exists f args w1, transient_of teqb l t = Some f /\ f_call f args w1 = (w', Ok v) /\
      map fst args = map p_name (f_params f) /\
      Forall2 (fun p a =>
        match dget String.eqb (p_name p) kw with
        | Some v => snd a = v
        | None => match p_default p with
                  | Some v => snd a = v
                  | None => exists w1 w2, try depth l (p_annotation p) [] w1 = (w2, Ok (snd a))
                  end
        end) (f_params f) args.
  Proof.
    unfold singleton_of, transient_of. intros S N H. cbn [tryResolve] in H. rewrite S, N in H.
    destruct (dget teqb t (transients l)) as [f|]; [|discriminate].
    destruct (binds _ kw (f_params f) w) as [w1 [args|e]] eqn:B; [|discriminate].
    destruct (f_call f args w1) as [w2 [v'|e]] eqn:C; [|discriminate].
    destruct (isinst v' t) as [[]|e]; try discriminate. injection H as -> ->.
    exists f, args, w1. destruct (binds_result _ _ _ _ _ _ B) as [B1 B2]. auto.
  Qed.

  Lemma binds_kw_ext r kw kw' : forall ps w,
    (forall p, In p ps -> dget String.eqb (p_name p) kw = dget String.eqb (p_name p) kw') -> binds r kw ps w = binds r kw' ps w.
  Proof.
    induction ps as [|p ps IH]; intros w H; [reflexivity|]. cbn [bind_arguments].
    assert (IH' : forall w, binds r kw ps w = binds r kw' ps w) by (intro; apply IH; intros; apply H; right; assumption).
    rewrite (H p (or_introl eq_refl)).
    destruct (dget String.eqb (p_name p) kw') as [v|]; [rewrite IH'; reflexivity|].
    destruct (p_default p) as [v|]; [rewrite IH'; reflexivity|].
    destruct (r (p_annotation p) w) as [w1 [v|e]]; [|reflexivity]. rewrite IH'. reflexivity.
  Qed.

  Lemma extra_keywords depth l t kw kw' w :
    (forall f p, transient_of teqb l t = Some f -> In p (f_params f) ->
       dget String.eqb (p_name p) kw = dget String.eqb (p_name p) kw') ->
    try depth l t kw w = try depth l t kw' w.
  Proof.
    intro H. destruct depth as [|n]; [reflexivity|]. cbn [tryResolve].
    destruct (isinst _ t) as [[]|e]; [reflexivity| |reflexivity].
    unfold transient_of in H. destruct (dget teqb t (transients l)) as [f|]; [|reflexivity].
    rewrite (binds_kw_ext _ kw kw'); [reflexivity|]. intros p HI. eapply H; [reflexivity|exact HI].
  Qed.

  Lemma dependency_fails depth l t kw f p e w : singleton_of teqb l t = None -> isinst none t = Ok false ->
    transient_of teqb l t = Some f -> In p (f_params f) -> required p -> dget String.eqb (p_name p) kw = None ->
    (forall w, exists w', try depth l (p_annotation p) [] w = (w', Err e)) ->
    exists w' e', try (S depth) l t kw w = (w', Err e').
  Proof.
    unfold singleton_of, transient_of. intros S N F HI HR HK HE. cbn [tryResolve]. rewrite S, N, F.
    destruct (binds_fails (fun t' w' => try depth l t' [] w') kw p e HE HR HK _ w HI) as (w' & e' & E).
    rewrite E. eauto.
  Qed.

  (** The first parameter that cannot be resolved determines the error; nothing after it happens. *)
  Lemma binds_first_error r kw pre p post w w1 a w2 e : binds r kw pre w = (w1, Ok a) ->
    dget String.eqb (p_name p) kw = None -> required p -> r (p_annotation p) w1 = (w2, Err e) ->
    binds r kw (pre ++ p :: post) w = (w2, Err e).
  Proof.
    intros B K D R. revert w a B. induction pre as [|q pre IH]; intros w a B.
    - cbn in B. injection B as <- <-. cbn [app bind_arguments]. unfold required in D. rewrite K, D, R. reflexivity.
    - cbn [app bind_arguments] in *. unfold required in D.
      destruct (dget String.eqb (p_name q) kw) as [v|].
      { destruct (binds r kw pre w) as [w3 [a3|e3]] eqn:B3; [|discriminate]. injection B as -> <-.
        rewrite (IH _ _ B3). reflexivity. }
      destruct (p_default q) as [v|].
      { destruct (binds r kw pre w) as [w3 [a3|e3]] eqn:B3; [|discriminate]. injection B as -> <-.
        rewrite (IH _ _ B3). reflexivity. }
      destruct (r (p_annotation q) w) as [w4 [v|e4]]; [|discriminate].
      destruct (binds r kw pre w4) as [w3 [a3|e3]] eqn:B3; [|discriminate]. injection B as -> <-.
      rewrite (IH _ _ B3). reflexivity.
  Qed.

  Lemma unregistered_dependency depth l t kw f pre p post w :
    singleton_of teqb l t = None -> isinst none t = Ok false ->
    transient_of teqb l t = Some f -> f_params f = pre ++ p :: post ->
    required p -> dget String.eqb (p_name p) kw = None ->
    (forall q, In q pre -> dget String.eqb (p_name q) kw <> None \/ p_default q <> None \/
       forall w, exists w' v, try (S depth) l (p_annotation q) [] w = (w', Ok v)) ->
    singleton_of teqb l (p_annotation p) = None -> isinst none (p_annotation p) = Ok false ->
    transient_of teqb l (p_annotation p) = None ->
    exists w', try (S (S depth)) l t kw w = (w', Err InvalidServiceConfiguration).
  Proof.
    intros S0 N F FP HR HK HPRE S1 N1 T1.
    assert (R : forall w, try (S depth) l (p_annotation p) [] w = (w, Err InvalidServiceConfiguration)).
    { intro w0. unfold singleton_of, transient_of in S1, T1. cbn [tryResolve]. rewrite S1, N1, T1. reflexivity. }
    assert (B : forall w, exists w1 a, binds (fun t' w' => try (S depth) l t' [] w') kw pre w = (w1, Ok a)).
    { clear FP. induction pre as [|q pre IH]; intro w0; [cbn; eauto|].
      assert (IH' := IH (fun q' H => HPRE q' (or_intror H))). cbn [bind_arguments].
      destruct (HPRE q (or_introl eq_refl)) as [H|[H|H]].
      - destruct (dget String.eqb (p_name q) kw) as [v|]; [|congruence].
        destruct (IH' w0) as (w1 & a & E1). rewrite E1. cbn. eauto.
      - destruct (dget String.eqb (p_name q) kw) as [v|].
        { destruct (IH' w0) as (w1 & a & E1). rewrite E1. cbn. eauto. }
        destruct (p_default q) as [v|]; [|congruence]. destruct (IH' w0) as (w1 & a & E1). rewrite E1. cbn. eauto.
      - destruct (dget String.eqb (p_name q) kw) as [v|].
        { destruct (IH' w0) as (w1 & a & E1). rewrite E1. cbn [bind]. eauto. }
        destruct (p_default q) as [v|].
        { destruct (IH' w0) as (w1 & a & E1). rewrite E1. cbn [bind]. eauto. }
        destruct (H w0) as (w1 & v & E0). rewrite E0. destruct (IH' w1) as (w2 & a & E1). rewrite E1. cbn [bind]. eauto. }
    destruct (B w) as (w1 & a & E).
    pose proof (binds_first_error (fun t' w' => try (S depth) l t' [] w') kw pre p post w w1 a w1 _ E HK HR (R w1)) as BE.
    exists w1. unfold singleton_of, transient_of in S0, F. remember (S depth) as n. cbn [tryResolve]. rewrite S0, N, F, FP, BE. reflexivity.
  Qed.

  (** ** Cycles *)
  Lemma cyclic l (C : T -> Prop) :
    (forall t, C t -> singleton_of teqb l t = None /\ isinst none t = Ok false /\
       exists f p, transient_of teqb l t = Some f /\ In p (f_params f) /\ required p /\ C (p_annotation p)) ->
    forall depth t w, C t -> forall w' v, try depth l t [] w <> (w', Ok v).
  Proof.
    intro H. induction depth as [|n IH]; intros t w HC w' v E; [discriminate|].
    destruct (H t HC) as (S & N & f & p & F & HI & HR & HC').
    destruct (resolve_binding n l t [] w w' v S N E) as (f' & args & w1 & F' & _ & _ & B).
    rewrite F in F'. injection F' as <-.
    assert (G : forall (ps : list (param T V)) (args : list (string * V)), Forall2 (fun (p : param T V) (a : string * V) =>
        match dget String.eqb (p_name p) [] with
        | Some v => snd a = v
        | None => match p_default p with
                  | Some v => snd a = v
                  | None => exists w1 w2, try n l (p_annotation p) [] w1 = (w2, Ok (snd a))
                  end
        end) ps args -> In p ps -> False).
    { clear - IH HR HC'. induction 1 as [|q a ps args Hq HF IHF]; intro HI; [contradiction|].
      destruct HI as [->|HI]; [|exact (IHF HI)]. cbn in Hq. unfold required in HR. rewrite HR in Hq.
      destruct Hq as (w1 & w2 & E). exact (IH _ _ HC' _ _ E). }
    exact (G _ _ B HI).
  Qed.

  (** Directly or with explicit keywords that do not break the cycle. *)
  Lemma cyclic_kw l (C : T -> Prop) :
    (forall t, C t -> singleton_of teqb l t = None /\ isinst none t = Ok false /\
       exists f p, transient_of teqb l t = Some f /\ In p (f_params f) /\ required p /\ C (p_annotation p)) ->
    forall depth t kw f p w, singleton_of teqb l t = None -> isinst none t = Ok false ->
      transient_of teqb l t = Some f -> In p (f_params f) -> required p -> C (p_annotation p) ->
      dget String.eqb (p_name p) kw = None -> forall w' v, try depth l t kw w <> (w', Ok v).
  Proof.
    intros H depth t kw f p w S N F HI HR HC HK w' v E. destruct depth as [|n]; [discriminate|].
    unfold singleton_of, transient_of in *. cbn [tryResolve] in E. rewrite S, N, F in E.
    destruct (binds (fun t' w' => try n l t' [] w') kw (f_params f) w) as [w1 [args|e]] eqn:B; [|discriminate].
    refine (binds_no_result (fun t' w' => try n l t' [] w') kw p _ HR HK _ _ _ _ HI B).
    intros w2 w3 v3. exact (cyclic l C H n _ _ HC _ _).
  Qed.

  (** ** Acyclic configurations *)
  Lemma acyclic l (rank : T -> nat) (D : T -> Prop) :
    (forall t, D t ->
       (exists v, singleton_of teqb l t = Some v /\ isinst v t = Ok true) \/
       (singleton_of teqb l t = None /\ isinst none t = Ok false /\
        exists f, transient_of teqb l t = Some f /\
          (forall p, In p (f_params f) -> required p -> D (p_annotation p) /\ (rank (p_annotation p) < rank t)%nat) /\
          (forall args w, map fst args = map p_name (f_params f) ->
             exists w' v, f_call f args w = (w', Ok v) /\ isinst v t = Ok true))) ->
    forall depth t kw w, D t -> (rank t < depth)%nat -> exists w' v, try depth l t kw w = (w', Ok v) /\ isinst v t = Ok true.
  Proof.
    intro H. induction depth as [|n IH]; intros t kw w HD HR; [lia|]. cbn [tryResolve].
    unfold singleton_of, transient_of in H.
    destruct (H t HD) as [(v & S & I)|(S & N & f & F & HP & HC)].
    - rewrite S, I. eauto.
    - rewrite S, N, F.
      assert (B : forall ps w, (forall p, In p ps -> In p (f_params f)) ->
        exists w' args, binds (fun t' w' => try n l t' [] w') kw ps w = (w', Ok args) /\ map fst args = map p_name ps).
      { induction ps as [|p ps IHp]; intros w0 HI; [cbn; eauto|]. cbn [bind_arguments].
        assert (IH' : forall w, exists w' args, binds (fun t' w' => try n l t' [] w') kw ps w = (w', Ok args) /\ map fst args = map p_name ps)
          by (intro; apply IHp; intros; apply HI; right; assumption).
        destruct (dget String.eqb (p_name p) kw) as [v|].
        { destruct (IH' w0) as (w' & args & -> & M). cbn. eexists _, _. split; [reflexivity|]. cbn. rewrite M. reflexivity. }
        destruct (p_default p) as [v|] eqn:DF.
        { destruct (IH' w0) as (w' & args & -> & M). cbn. eexists _, _. split; [reflexivity|]. cbn. rewrite M. reflexivity. }
        destruct (HP p (HI p (or_introl eq_refl)) DF) as [HD' HR'].
        destruct (IH (p_annotation p) [] w0 HD' ltac:(lia)) as (w1 & v & -> & _).
        destruct (IH' w1) as (w' & args & -> & M). cbn. eexists _, _. split; [reflexivity|]. cbn. rewrite M. reflexivity. }
      destruct (B (f_params f) w (fun p HI => HI)) as (w1 & args & -> & M).
      destruct (HC args w1 M) as (w2 & v & -> & I). rewrite I. eauto.
  Qed.

  Lemma unregistered l depth t kw w : singleton_of teqb l t = None -> transient_of teqb l t = None -> isinst none t = Ok false ->
    try (S depth) l t kw w = (w, Err InvalidServiceConfiguration).
  Proof. unfold singleton_of, transient_of. intros A B C. cbn [tryResolve]. rewrite A, C, B. reflexivity. Qed.

  Lemma none_served l depth t kw w : singleton_of teqb l t = None -> isinst none t = Ok true ->
    try (S depth) l t kw w = (w, Ok none).
  Proof. unfold singleton_of. intros A C. cbn [tryResolve]. rewrite A, C. reflexivity. Qed.

  Lemma latest_singleton_wins h depth t kw w v : latest_singleton teqb isinst (rev h) t = Some v ->
    try (S depth) (located h) t kw w = (w, Ok v).
  Proof.
    intro H. pose proof (registered_singletons_ok _ _ _ H) as I. rewrite <- singletons_located in H.
    unfold singleton_of in H. cbn [tryResolve]. rewrite H, I. reflexivity.
  Qed.

  Lemma singleton_identity h h' depth t kw w v : sealed (located h) = false -> isinst v t = Ok true ->
    (forall o, In o h' -> match o with RegSingleton t' _ => t' <> t | Clear => False | _ => True end) ->
    try (S depth) (located (h ++ RegSingleton t v :: h')) t kw w = (w, Ok v).
  Proof.
    intros S0 I H. apply latest_singleton_wins. rewrite rev_app_distr. cbn [rev]. rewrite <- app_assoc. cbn [app].
    assert (H' : forall o, In o (rev h') -> match o with RegSingleton t' _ => t' <> t | Clear => False | _ => True end)
      by (intros o HI; apply H, in_rev; exact HI).
    clear H. revert H'. generalize (rev h'). intro g. induction g as [|o g IH]; intro H.
    - cbn [app latest_singleton]. rewrite teqb_refl, <- sealed_located, S0, I. reflexivity.
    - pose proof (H o (or_introl eq_refl)) as H0. specialize (IH (fun o' HI => H o' (or_intror HI))).
      cbn [app]. destruct o as [t' v'|t' f| |]; cbn [latest_singleton]; try assumption; [|contradiction].
      destruct (teqb t t') eqn:E; [apply teqb_eq in E; congruence|exact IH].
  Qed.

  Lemma latest_transient_wins h depth t kw w : latest_singleton teqb isinst (rev h) t = None -> isinst none t = Ok false ->
    match latest_transient teqb (rev h) t with
    | None => try (S depth) (located h) t kw w = (w, Err InvalidServiceConfiguration)
    | Some f => forall w' v, try (S depth) (located h) t kw w = (w', Ok v) -> exists args w1, f_call f args w1 = (w', Ok v)
    end.
  Proof.
    rewrite <- singletons_located, <- transients_located. intros S0 N.
    destruct (transient_of teqb (located h) t) as [f|] eqn:F.
    - intros w' v H. destruct (resolve_binding _ _ _ _ _ _ _ S0 N H) as (f' & args & w1 & F' & C & _).
      exists args, w1. congruence.
    - apply unregistered; assumption.
  Qed.

  Lemma sealed_frozen h h' : sealed (located h) = true -> forallb (fun o => negb (is_clear o)) h' = true ->
    located (h ++ h') = located h.
  Proof. intros S0 H. unfold Locator_Spec.located. rewrite fold_left_app. apply sealed_ops; assumption. Qed.

  Lemma sealed_raises l o : sealed l = true -> is_clear o = false -> perform o l = (l, Err ValueError).
  Proof. intros S0 H. destruct o; cbn; unfold registerAsSingleton, registerAsTransient, seal; try rewrite S0; try reflexivity. discriminate. Qed.

  Lemma sealed_iff h : isSealed (located h) = true <->
    exists h1 h2, h = h1 ++ Seal :: h2 /\ forallb (fun o => negb (is_clear o)) h2 = true.
  Proof.
    clear none. unfold isSealed. rewrite sealed_located. induction h as [|o h IH] using rev_ind.
    - cbn. split; [discriminate|]. intros (h1 & h2 & E & _). destruct h1; discriminate.
    - rewrite rev_app_distr. cbn [rev app].
      assert (SNOC : forall o, sealed_by (rev h) = true -> is_clear o = false ->
        exists h1 h2, h ++ [o] = h1 ++ Seal :: h2 /\ forallb (fun o => negb (is_clear o)) h2 = true).
      { intros o' H C. apply IH in H. destruct H as (h1 & h2 & -> & F). exists h1, (h2 ++ [o']).
        rewrite <- app_assoc. split; [reflexivity|]. rewrite forallb_app, F. cbn. rewrite C. reflexivity. }
      assert (BACK : forall o, (exists h1 h2, h ++ [o] = h1 ++ Seal :: h2 /\ forallb (fun o => negb (is_clear o)) h2 = true) ->
        o <> Seal -> sealed_by (rev h) = true).
      { intros o' (h1 & h2 & E & F) NS. apply IH. destruct (@exists_last _ h2) as (h2' & x & ->).
        { intros ->. change (h1 ++ [Seal]) with (h1 ++ [Seal]) in E. apply app_inj_tail in E as [_ E]. congruence. }
        replace (h1 ++ Seal :: h2' ++ [x]) with ((h1 ++ Seal :: h2') ++ [x]) in E by (rewrite <- app_assoc; reflexivity).
        apply app_inj_tail in E as [E _]. exists h1, h2'. split; [exact E|].
        rewrite forallb_app in F. apply andb_prop in F. tauto. }
      destruct o as [t v|t f| |]; cbn [sealed_by].
      + split; intro H; [apply SNOC; [exact H|reflexivity]|eapply BACK; [exact H|discriminate]].
      + split; intro H; [apply SNOC; [exact H|reflexivity]|eapply BACK; [exact H|discriminate]].
      + split; [|reflexivity]. intros _. exists h, []. split; reflexivity.
      + split; [discriminate|]. intros (h1 & h2 & E & F). destruct (@exists_last _ h2) as (h2' & x & ->).
        { intros ->. apply app_inj_tail in E as [_ E]. congruence. }
        replace (h1 ++ Seal :: h2' ++ [x]) with ((h1 ++ Seal :: h2') ++ [x]) in E by (rewrite <- app_assoc; reflexivity).
        apply app_inj_tail in E as [_ <-]. rewrite forallb_app in F. cbn in F. rewrite Bool.andb_false_r in F. exact F.
  Qed.

  Lemma cyclic_raises l (C : T -> Prop) :
    (forall t, C t -> singleton_of teqb l t = None /\ isinst none t = Ok false /\
       exists f p, transient_of teqb l t = Some f /\ In p (f_params f) /\ required p /\ C (p_annotation p)) ->
    forall depth t kw f p w, C t -> transient_of teqb l t = Some f -> In p (f_params f) -> required p ->
      C (p_annotation p) -> dget String.eqb (p_name p) kw = None ->
      exists w' e, try depth l t kw w = (w', Err e).
  Proof.
    intros H depth t kw f p w HC F HI HR HC' HK. destruct (H t HC) as (S0 & N & _).
    destruct (try depth l t kw w) as [w' [v|e]] eqn:E; [|eauto].
    exfalso. exact (cyclic_kw l C H depth t kw f p w S0 N F HI HR HC' HK _ _ E).
  Qed.

  Lemma explicit_breaks l depth t kw f w : singleton_of teqb l t = None -> isinst none t = Ok false -> transient_of teqb l t = Some f ->
    (forall p, In p (f_params f) -> required p -> dget String.eqb (p_name p) kw <> None) ->
    (forall args w, map fst args = map p_name (f_params f) ->
             exists w' v, f_call f args w = (w', Ok v) /\ isinst v t = Ok true) ->
    exists w' v, try (S depth) l t kw w = (w', Ok v).
  Proof.
    unfold singleton_of, transient_of. intros S0 N F HP HC. cbn [tryResolve]. rewrite S0, N, F.
    assert (B : forall ps w, (forall p, In p ps -> In p (f_params f)) ->
      exists args, binds (fun t' w' => try depth l t' [] w') kw ps w = (w, Ok args) /\ map fst args = map p_name ps).
    { induction ps as [|p ps IH]; intros w0 HI; [exists []; split; reflexivity|].
      destruct (IH w0 (fun q Hq => HI q (or_intror Hq))) as (args & E & M). cbn [bind_arguments].
      pose proof (HP p (HI p (or_introl eq_refl))) as R. unfold required in R.
      destruct (dget String.eqb (p_name p) kw) as [v|]; [|destruct (p_default p) as [v|]; [|exfalso; apply R; reflexivity]];
        rewrite E; cbn [bind]; eexists; (split; [reflexivity|]); cbn; rewrite M; reflexivity. }
    destruct (B (f_params f) w (fun p HI => HI)) as (args & -> & M).
    destruct (HC args w M) as (w' & v & -> & I). rewrite I. eauto.
  Qed.
End Proofs.

Lemma wrong_type_rejected {T V W} teqb isinst t v (l : locator T V W) : isinst v t <> Ok true ->
  exists e, registerAsSingleton teqb isinst t v l = (l, Err e).
Proof.
  intro H. unfold registerAsSingleton. destruct (sealed l); [eauto|]. destruct (isinst v t) as [[|]|e]; [congruence|eauto|eauto].
Qed.
