(** * The command line controller: proofs *)
From Verif Require Import PyBase Json_Model Json_Proofs Settings_Model Settings_Spec Settings_Proofs Settings_Proofs2 Settings_Proofs3
  Factory_Model Factory_Spec Factory_Proofs Cli_Model Cli_Spec.
Open Scope list_scope.

(** ** Case *)
Lemma same_letter_upper a b : upper_ascii a = upper_ascii b <-> same_letter a b.
Proof.
  unfold upper_ascii, same_letter.
  destruct ((97 <=? a) && (a <=? 122))%N%bool eqn:A; destruct ((97 <=? b) && (b <=? 122))%N%bool eqn:B;
    rewrite ?andb_true_iff, ?andb_false_iff, ?N.leb_le, ?N.leb_gt in A, B; lia.
Qed.
Lemma upper_ascii_text up s : ascii s -> upper up s = map upper_ascii s.
Proof.
  intro A. unfold upper, map_text. induction A as [|c s Hc A IH]; [reflexivity|]. cbn [flat_map map].
  apply N.ltb_lt in Hc. rewrite Hc, IH. reflexivity.
Qed.
Lemma upper_nocase up s t : ascii s -> ascii t -> upper up t = t -> (upper up s = t <-> nocase s t).
Proof.
  intros A B U. rewrite (upper_ascii_text up s A). rewrite (upper_ascii_text up t B) in U. rewrite <- U at 1. clear U. unfold nocase.
  revert t B. induction A as [|c s Hc A IH]; intros t B; destruct B as [|d t Hd B]; cbn [map].
  - split; [constructor|reflexivity].
  - split; [discriminate|intro H; inversion H].
  - split; [discriminate|intro H; inversion H].
  - split.
    + intro H. injection H as H1 H2. constructor; [apply same_letter_upper; exact H1|apply IH; assumption].
    + intro H. inversion H; subst. f_equal; [apply same_letter_upper; assumption|apply IH; assumption].
Qed.

Lemma txt_eqb_find {A} (name : A -> string) (l : list A) s c :
  find (fun c => text_eqb (txt (name c)) s) l = Some c -> s = txt (name c).
Proof. intro H. apply find_some in H as [_ H]. apply text_eqb_eq in H. congruence. Qed.
Lemma txt_eqb_find_none {A} (name : A -> string) (l : list A) s c :
  find (fun c => text_eqb (txt (name c)) s) l = None -> In c l -> s <> txt (name c).
Proof.
  intros H HI C. pose proof (find_none _ _ H c HI) as F. cbn in F. subst s.
  rewrite (proj2 (text_eqb_eq (txt (name c)) (txt (name c))) eq_refl) in F. discriminate.
Qed.
Lemma all_containers c : In c container_members. Proof. destruct c; cbn; tauto. Qed.
Lemma all_algorithms c : In c algorithm_members. Proof. destruct c; cbn; tauto. Qed.
Lemma all_estimators c : In c estimator_members. Proof. destruct c; cbn; tauto. Qed.
Lemma all_levels c : In c level_members. Proof. destruct c; cbn; tauto. Qed.

Section Run.
  Variables up low : N -> text.
  Variable args : settings_args.
  Notation wants := (wants up low args).
  Notation asks := (asks args).
  Hypothesis precise : forall p, a_precision args = Some p -> truthy p = true -> accepted KPrecision p = Some p.

  Lemma wants_unique k v v' : wants k v -> wants k v' -> v = v'.
  Proof.
    intros [_ H] [_ H']. destruct k.
    - destruct H as (t & c & E & U & ->), H' as (t' & c' & E' & U' & ->). rewrite E in E'. injection E' as <-.
      rewrite U in U'. destruct c, c'; try reflexivity; vm_compute in U'; discriminate.
    - destruct H as (t & c & E & U & ->), H' as (t' & c' & E' & U' & ->). rewrite E in E'. injection E' as <-.
      rewrite U in U'. destruct c, c'; try reflexivity; vm_compute in U'; discriminate.
    - destruct H as (t & c & E & U & ->), H' as (t' & c' & E' & U' & ->). rewrite E in E'. injection E' as <-.
      rewrite U in U'. destruct c, c'; try reflexivity; vm_compute in U'; discriminate.
    - destruct H as (t & c & E & U & ->), H' as (t' & c' & E' & U' & ->). rewrite E in E'. injection E' as <-.
      rewrite U in U'. destruct c, c'; try reflexivity; vm_compute in U'; discriminate.
    - destruct H as (t & b & E & U & ->), H' as (t' & b' & E' & U' & ->). rewrite E in E'. injection E' as <-.
      do 2 f_equal. destruct b, b'; try reflexivity; [symmetry; tauto|tauto].
    - congruence.
  Qed.
  Lemma wants_accepted k v : wants k v -> accepted k v = Some v.
  Proof.
    intros [A H]. destruct k.
    1-4: destruct H as (t & c & _ & _ & ->); reflexivity.
    - destruct H as (t & b & _ & _ & ->). reflexivity.
    - destruct A as (p & E & T). rewrite E in H. injection H as <-. apply precise; assumption.
  Qed.
  Lemma accepted_eqb k v : accepted k v = Some v -> py_eqb v v = true.
  Proof.
    intro H. destruct k, v; try discriminate H; cbn; try apply String.eqb_refl.
    - destruct j; try discriminate H. destruct b; reflexivity.
    - destruct l as [|x [|y l]]; try discriminate H. cbn in H. destruct (is_int x && is_int y)%bool eqn:I; [|discriminate].
      injection H as H. subst l. apply andb_true_iff in I as [I1 I2].
      assert (R : forall x, is_int x = true -> simple_eqb x x = true).
      { intros z Z. destruct z as [j| | | | | |]; try discriminate Z. destruct j; try discriminate Z; cbn.
        - destruct b; reflexivity.
        - apply Z.eqb_refl. }
      cbn. rewrite (R x I1), (R y I2). reflexivity.
  Qed.

  (** One option. *)
  Definition step (k : key) (st : cli) : cli * res unit :=
    match k with
    | KContainer => if_text (a_container args) (fun t => changeContainerSetting up (t ++ txt "_container")) st
    | KAlgorithm => if_text (a_algorithm args) (changeAlgorithmSetting up) st
    | KEstimator => if_text (a_estimator args) (fun t => changeEstimatorSetting up (t ++ txt "_estimator")) st
    | KLevel => if_text (a_level args) (changeLogLevelSetting up) st
    | KVerbose => if_text (a_verbose args) (changeVerbositySetting low) st
    | KPrecision => match a_precision args with
                    | Some p => if truthy p then changePrecisionSetting p st else (st, Ok tt)
                    | None => (st, Ok tt)
                    end
    end.
  Definition shown (k : key) (old v : pyval) : pyval := match k with KContainer => old | _ => v end.
  Lemma step_shape k st :
    ~ asks k /\ step k st = (st, Ok tt) \/
    (exists v, wants k v /\ step k st = change_to k v (shown k (get k (c_service st)) v) st) \/
    asks k /\ (forall v, ~ wants k v) /\ step k st = (st, Err (SystemExit 2)).
  Proof.
    assert (NG : forall o, (o = None \/ o = Some []) -> ~ given o).
    { intros o [->| ->] (t & E & N); [discriminate|injection E as <-; contradiction]. }
    assert (GI : forall o (c : N) t, o = Some (c :: t) -> given o) by (intros o c t ->; exists (c :: t); split; [reflexivity|discriminate]).
    destruct k; cbn [step].
    - destruct (a_container args) as [[|c t]|] eqn:E; [left; split; [apply NG; tauto|reflexivity]| |left; split; [apply NG; tauto|reflexivity]].
      right. cbn [if_text]. unfold changeContainerSetting. destruct (find _ _) as [x|] eqn:F.
      + left. exists (VContainer x). split; [|reflexivity]. split; [exact (GI _ c t E)|]. exists (c :: t), x.
        split; [exact E|]. split; [exact (txt_eqb_find container_name _ _ _ F)|reflexivity].
      + right. split; [exact (GI _ c t E)|]. split; [|reflexivity]. intros v [_ (t' & x & E' & U & _)]. rewrite E in E'. injection E' as <-.
        exact (txt_eqb_find_none container_name _ _ x F (all_containers x) U).
    - destruct (a_algorithm args) as [[|c t]|] eqn:E; [left; split; [apply NG; tauto|reflexivity]| |left; split; [apply NG; tauto|reflexivity]].
      right. cbn [if_text]. unfold changeAlgorithmSetting. destruct (find _ _) as [x|] eqn:F.
      + left. exists (VAlgorithm x). split; [|reflexivity]. split; [exact (GI _ c t E)|]. exists (c :: t), x.
        split; [exact E|]. split; [exact (txt_eqb_find algorithm_name _ _ _ F)|reflexivity].
      + right. split; [exact (GI _ c t E)|]. split; [|reflexivity]. intros v [_ (t' & x & E' & U & _)]. rewrite E in E'. injection E' as <-.
        exact (txt_eqb_find_none algorithm_name _ _ x F (all_algorithms x) U).
    - destruct (a_estimator args) as [[|c t]|] eqn:E; [left; split; [apply NG; tauto|reflexivity]| |left; split; [apply NG; tauto|reflexivity]].
      right. cbn [if_text]. unfold changeEstimatorSetting. destruct (find _ _) as [x|] eqn:F.
      + left. exists (VEstimator x). split; [|reflexivity]. split; [exact (GI _ c t E)|]. exists (c :: t), x.
        split; [exact E|]. split; [exact (txt_eqb_find estimator_name _ _ _ F)|reflexivity].
      + right. split; [exact (GI _ c t E)|]. split; [|reflexivity]. intros v [_ (t' & x & E' & U & _)]. rewrite E in E'. injection E' as <-.
        exact (txt_eqb_find_none estimator_name _ _ x F (all_estimators x) U).
    - destruct (a_level args) as [[|c t]|] eqn:E; [left; split; [apply NG; tauto|reflexivity]| |left; split; [apply NG; tauto|reflexivity]].
      right. cbn [if_text]. unfold changeLogLevelSetting. destruct (find _ _) as [x|] eqn:F.
      + left. exists (VLevel x). split; [|reflexivity]. split; [exact (GI _ c t E)|]. exists (c :: t), x.
        split; [exact E|]. split; [exact (txt_eqb_find level_name _ _ _ F)|reflexivity].
      + right. split; [exact (GI _ c t E)|]. split; [|reflexivity]. intros v [_ (t' & x & E' & U & _)]. rewrite E in E'. injection E' as <-.
        exact (txt_eqb_find_none level_name _ _ x F (all_levels x) U).
    - destruct (a_verbose args) as [[|c t]|] eqn:E; [left; split; [apply NG; tauto|reflexivity]| |left; split; [apply NG; tauto|reflexivity]].
      right. left. cbn [if_text]. unfold changeVerbositySetting. eexists. split; [|reflexivity]. split; [exact (GI _ c t E)|].
      exists (c :: t). eexists. split; [exact E|]. split; [apply text_eqb_eq|reflexivity].
    - destruct (a_precision args) as [p|] eqn:E.
      + destruct (truthy p) eqn:T.
        * right. left. exists p. split; [|reflexivity]. split; [|exact E]. exists p. split; [exact E|exact T].
        * left. split; [|reflexivity]. intros (p' & E' & T'). rewrite E in E'. injection E' as <-. congruence.
      + left. split; [|reflexivity]. intros (p' & E' & T'). congruence.
  Qed.

  Definition inv (dd dc : list (text * json)) (st : cli) : Prop :=
    good (default_file (c_files st)) dd /\ good (custom_file (c_files st)) dc /\ settings_init (c_files st) = Ok (c_service st).

  Lemma step_ok k st dd dc v : inv dd dc st -> wants k v ->
    if py_eqb v (get k (c_service st)) then step k st = (st, Ok tt)
    else exists fs' dc', step k st = (mkCli (put k v (c_service st)) fs' (c_out st ++ [Changed k (get k (c_service st)) (shown k (get k (c_service st)) v)]), Ok tt) /\
         inv dd dc' (mkCli (put k v (c_service st)) fs' (c_out st ++ [Changed k (get k (c_service st)) (shown k (get k (c_service st)) v)])) /\
         default_file fs' = default_file (c_files st) /\
         forall name, name <> key_name k -> dget text_eqb name dc' = dget text_eqb name dc.
  Proof.
    intros (GD & GC & I) W. pose proof (wants_accepted k v W) as A.
    destruct (step_shape k st) as [[N _]|[(v' & W' & E)|(_ & N & _)]]; [exfalso; apply N; exact (proj1 W)| |exfalso; exact (N v W)].
    rewrite (wants_unique k v' v W' W) in E. rewrite E. unfold change_to.
    destruct (py_eqb v (get k (c_service st))); [reflexivity|].
    pose proof (init_set _ dd dc _ k v (c_service st) GD GC I) as I'. unfold updated in I'. rewrite A in I'.
    destruct (set_good k v (c_service st) (c_files st) dc GC) as (dc' & G' & ED). pose proof (set_default k v (c_service st) (c_files st)) as SD.
    unfold set_property in *. rewrite (update_good _ _ k v GC) in *. pose proof (value_accept k v) as VA.
    destruct (value_json k v) as [j|e]; [|congruence]. cbn [fst snd] in *.
    eexists. exists dc'. split; [reflexivity|]. split; [|split; [exact SD|]].
    - split; [cbn [c_files]; rewrite SD; exact GD|]. split; [exact G'|exact I'].
    - intros name Nn. rewrite ED. apply (dget_dset_other text_eqb text_eqb_eq). congruence.
  Qed.

  Fixpoint run (ks : list key) (st : cli) : cli * res unit :=
    match ks with
    | [] => (st, Ok tt)
    | k :: ks' => andthen (step k st) (run ks')
    end.
  Lemma run_app ks ks' st : run (ks ++ ks') st = andthen (run ks st) (run ks').
  Proof.
    revert st. induction ks as [|k ks IH]; intro st; [reflexivity|]. cbn [app run]. unfold andthen in *.
    destruct (snd (step k st)); [apply IH|reflexivity].
  Qed.
  Lemma handle_run st : handleChangeSubcommand up low args st = run [KContainer; KAlgorithm; KEstimator; KLevel; KVerbose; KPrecision] st.
  Proof.
    cbn [run]. assert (A : forall r, andthen r (fun st => (st, Ok tt)) = (fst r, snd r)).
    { intros [st' [[]|e]]; reflexivity. }
    unfold handleChangeSubcommand. cbn [step]. unfold andthen at 1 6.
    destruct (snd (if_text (a_container args) _ st)); [|reflexivity]. unfold andthen at 1 5. destruct (snd (if_text (a_algorithm args) _ _)); [|reflexivity].
    unfold andthen at 1 4. destruct (snd (if_text (a_estimator args) _ _)); [|reflexivity]. unfold andthen at 1 3. destruct (snd (if_text (a_level args) _ _)); [|reflexivity].
    unfold andthen at 1 2. destruct (snd (if_text (a_verbose args) _ _)); [|reflexivity]. rewrite A. apply surjective_pairing.
  Qed.

  Definition effect (k : key) (s s' : service) : Prop :=
    (forall v, wants k v -> get k s' = if py_eqb v (get k s) then get k s else v) /\ (~ asks k -> get k s' = get k s).
  Definition announced (s : service) (k : key) (o n : pyval) : Prop :=
    exists v, wants k v /\ py_eqb v (get k s) = false /\ o = get k s /\ n = shown k (get k s) v.

  Lemma run_ok ks : NoDup ks -> (forall k, In k ks -> asks k -> exists v, wants k v) -> forall st dd dc, inv dd dc st ->
    exists st' dc', run ks st = (st', Ok tt) /\ inv dd dc' st' /\ default_file (c_files st') = default_file (c_files st) /\
      (forall k, In k ks -> effect k (c_service st) (c_service st')) /\
      (forall k, ~ In k ks -> get k (c_service st') = get k (c_service st)) /\
      (forall name, (forall k, In k ks -> asks k -> name <> key_name k) -> dget text_eqb name dc' = dget text_eqb name dc) /\
      (exists ms, c_out st' = c_out st ++ ms /\ forall k o n, In (Changed k o n) ms <-> In k ks /\ announced (c_service st) k o n) /\
      ((forall k v, In k ks -> wants k v -> py_eqb v (get k (c_service st)) = true) -> st' = st).
  Proof.
    induction ks as [|k ks IH]; intros ND HW st dd dc I.
    - exists st, dc. split; [reflexivity|]. split; [exact I|]. split; [reflexivity|]. split; [intros k []|]. split; [reflexivity|].
      split; [reflexivity|]. split; [exists []; split; [rewrite app_nil_r; reflexivity|cbn; tauto]|reflexivity].
    - inversion ND as [|? ? N1 N2]; subst. cbn [run].
      assert (HW' : forall k', In k' ks -> asks k' -> exists v, wants k' v) by (intros k' HI; apply HW; right; exact HI).
      assert (SAME : forall st1, step k st = (st1, Ok tt) -> st1 = st -> (forall v, wants k v -> py_eqb v (get k (c_service st)) = true) ->
        exists st' dc', andthen (step k st) (run ks) = (st', Ok tt) /\ inv dd dc' st' /\ default_file (c_files st') = default_file (c_files st) /\
      (forall k0, In k0 (k :: ks) -> effect k0 (c_service st) (c_service st')) /\
      (forall k0, ~ In k0 (k :: ks) -> get k0 (c_service st') = get k0 (c_service st)) /\
      (forall name, (forall k0, In k0 (k :: ks) -> asks k0 -> name <> key_name k0) -> dget text_eqb name dc' = dget text_eqb name dc) /\
      (exists ms, c_out st' = c_out st ++ ms /\ forall k0 o n, In (Changed k0 o n) ms <-> In k0 (k :: ks) /\ announced (c_service st) k0 o n) /\
      ((forall k0 v, In k0 (k :: ks) -> wants k0 v -> py_eqb v (get k0 (c_service st)) = true) -> st' = st)).
      { intros st1 E ES EQ. subst st1. unfold andthen. rewrite E. cbn [fst snd].
        destruct (IH N2 HW' st dd dc I) as (st' & dc' & R & I' & D' & EF & FR & NM & (ms & OUT & MS) & NOP).
        exists st', dc'. split; [exact R|]. split; [exact I'|]. split; [exact D'|]. split; [|split; [|split; [|split]]].
        - intros k0 [<-|HI]; [|exact (EF k0 HI)]. split; intros; [rewrite (EQ v) by assumption|]; apply FR; exact N1.
        - intros k0 N. apply FR. intro C. apply N. right. exact C.
        - intros name N. apply NM. intros k0 HI. apply N. right. exact HI.
        - exists ms. split; [exact OUT|]. intros k0 o n. rewrite MS. split; intros [H1 H2].
          + split; [right; exact H1|exact H2].
          + destruct H1 as [<-|H1]; [|auto]. exfalso. destruct H2 as (v & W & P & _). rewrite (EQ v W) in P. discriminate.
        - intro H. apply NOP. intros k0 v HI. apply H. right. exact HI. }
      destruct (step_shape k st) as [[NA E]|[(v & W & E)|(A & NW & E)]].
      + apply (SAME st E eq_refl). intros v W. exfalso. apply NA. exact (proj1 W).
      + clear E. pose proof (step_ok k st dd dc v I W) as SO. destruct (py_eqb v (get k (c_service st))) eqn:P.
        * apply (SAME st SO eq_refl). intros v' W'. rewrite (wants_unique k v' v W' W). exact P.
        * destruct SO as (fs' & dc1 & E & I1 & D1 & NM1). unfold andthen. rewrite E. cbn [fst snd].
          set (st1 := mkCli (put k v (c_service st)) fs' (c_out st ++ [Changed k (get k (c_service st)) (shown k (get k (c_service st)) v)])) in *.
          destruct (IH N2 HW' st1 dd dc1 I1) as (st' & dc' & R & I' & D' & EF & FR & NM & (ms & OUT & MS) & NOP).
          assert (G1 : forall k0, k0 <> k -> get k0 (c_service st1) = get k0 (c_service st)).
          { intros k0 N. unfold st1. cbn [c_service]. apply get_put_other. congruence. }
          exists st', dc'. split; [exact R|]. split; [exact I'|]. split; [rewrite D'; exact D1|]. split; [|split; [|split; [|split]]].
          -- intros k0 [<-|HI].
             ++ split; [|intro NA; exfalso; apply NA; exact (proj1 W)]. intros v' W'. rewrite (wants_unique k v' v W' W), P.
                rewrite (FR k N1). unfold st1. cbn [c_service]. apply get_put_same.
             ++ assert (N : k0 <> k) by (intro C; subst; contradiction). destruct (EF k0 HI) as [E1 E2]. rewrite (G1 k0 N) in E1, E2. split; assumption.
          -- intros k0 N. rewrite FR by (intro C; apply N; right; exact C). apply G1. intro C. apply N. left. congruence.
          -- intros name N. rewrite NM by (intros k0 HI; apply N; right; exact HI). apply NM1. apply N; [left; reflexivity|exact (proj1 W)].
          -- exists (Changed k (get k (c_service st)) (shown k (get k (c_service st)) v) :: ms). split.
             ++ rewrite OUT. unfold st1. cbn [c_out]. rewrite <- app_assoc. reflexivity.
             ++ intros k0 o n. cbn [In]. rewrite MS. split.
                ** intros [H|[H1 H2]].
                   --- injection H as <- <- <-. split; [left; reflexivity|]. exists v. auto.
                   --- split; [right; exact H1|]. unfold announced in *. rewrite G1 in H2 by (intro C; subst; contradiction). exact H2.
                ** intros [H1 H2]. destruct H1 as [<-|H1].
                   --- left. destruct H2 as (v' & W' & P' & -> & ->). rewrite (wants_unique k v' v W' W). reflexivity.
                   --- right. split; [exact H1|]. unfold announced in *. rewrite G1 by (intro C; subst; contradiction). exact H2.
          -- intro H. exfalso. rewrite (H k v (or_introl eq_refl) W) in P. discriminate.
      + exfalso. destruct (HW k (or_introl eq_refl) A) as [v W]. exact (NW v W).
  Qed.

  Lemma run_fail pre k post st dd dc : NoDup pre -> (forall k', In k' pre -> asks k' -> exists v, wants k' v) -> inv dd dc st ->
    asks k -> (forall v, ~ wants k v) ->
    exists st', run pre st = (st', Ok tt) /\ run (pre ++ k :: post) st = (st', Err (SystemExit 2)).
  Proof.
    intros ND HW I A NW. destruct (run_ok pre ND HW st dd dc I) as (st' & dc' & R & _). exists st'. split; [exact R|].
    rewrite run_app, R. unfold andthen at 1. cbn [fst snd run].
    destruct (step_shape k st') as [[NA _]|[(v & W & _)|(_ & _ & E)]]; [contradiction|exfalso; exact (NW v W)|].
    unfold andthen. rewrite E. reflexivity.
  Qed.
End Run.
