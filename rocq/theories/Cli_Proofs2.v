(** * The command line controller: the theorems *)
From Verif Require Import PyBase Json_Model Json_Proofs Settings_Model Settings_Spec Settings_Proofs Settings_Proofs2 Settings_Proofs3
  Factory_Model Factory_Spec Factory_Proofs Cli_Model Cli_Spec Cli_Proofs.
Open Scope list_scope.

Lemma init_verbose_bool fs s : settings_init fs = Ok s -> exists b, get KVerbose s = VJson (JBool b).
Proof.
  unfold settings_init. intro H. destruct (core_init fs) as [x|]; [|discriminate]. cbn [bind] in H.
  destruct (load_settings (default_file fs) []) as [x1|]; [|discriminate]. cbn [bind] in H.
  destruct (load_settings (custom_file fs) x1) as [x2|]; [|discriminate]. cbn [bind] in H.
  destruct (index _ x2) as [x3|]; [|discriminate]. cbn [bind] in H. destruct (init_precision _) as [x4|]; [|discriminate]. cbn [bind] in H.
  destruct (find_level x3) as [l|]; [|discriminate]. destruct (init_verbose _) as [b|] eqn:E; [|discriminate]. destruct x4; [|discriminate].
  injection H as <-. cbn. unfold init_verbose in E. destruct (dget _ _ _) as [w|]; [|discriminate].
  destruct w as [j| | | | | |]; try (injection E as <-; eexists; reflexivity). destruct j; try discriminate; injection E as <-; eexists; reflexivity.
Qed.

Lemma precise_of args : precision_pair args -> forall p, a_precision args = Some p -> truthy p = true -> accepted KPrecision p = Some p.
Proof. intros P p E T. destruct (P p E T) as (x & y & -> & X & Y). cbn. rewrite X, Y. reflexivity. Qed.

Lemma simple_number x x' : is_int x = true -> simple_eqb x x' = true <-> exists a, number x = Some a /\ number x' = Some a.
Proof.
  intro I. destruct x as [j| | | | | |]; try discriminate I. destruct j; try discriminate I.
  - destruct x' as [j'| | | | | |]; try (split; [discriminate|intros (? & _ & H); discriminate H]).
    destruct j'; try (split; [discriminate|intros (? & _ & H); discriminate H]).
    + destruct b, b0; cbn; (split; [intro H; first [discriminate H|eexists; split; reflexivity]|intros (a & H1 & H2); congruence]).
    + cbn. unfold json_eqb. cbn. destruct b; rewrite Z.eqb_eq; (split; [intros <-; eexists; split; reflexivity|intros (a & H1 & H2); congruence]).
  - destruct x' as [j'| | | | | |]; try (split; [discriminate|intros (? & _ & H); discriminate H]).
    destruct j'; try (split; [discriminate|intros (? & _ & H); discriminate H]).
    + cbn. unfold json_eqb. cbn. destruct b; rewrite Z.eqb_eq; (split; [intros ->; eexists; split; reflexivity|intros (a & H1 & H2); congruence]).
    + cbn. unfold json_eqb. cbn. rewrite Z.eqb_eq. split; [intros ->; eexists; split; reflexivity|intros (a & H1 & H2); congruence].
Qed.

Section Run.
  Variables up low : N -> text.
  Variable args : settings_args.
  Notation wants := (wants up low args).
  Notation asks := (asks args).
  Hypothesis pair : precision_pair args.

  Lemma already_eqb k v fs s : wants k v -> settings_init fs = Ok s -> py_eqb v (get k s) = true <-> already v (get k s).
  Proof.
    intros W I. pose proof (wants_accepted up low args (precise_of args pair) k v W) as A. split.
    - intro E. destruct k.
      + destruct v; try discriminate A. destruct (get KContainer s); try discriminate E. cbn in E. apply String.eqb_eq in E.
        left. destruct c, c0; try discriminate E; reflexivity.
      + destruct v; try discriminate A. destruct (get KAlgorithm s); try discriminate E. cbn in E. apply String.eqb_eq in E.
        left. destruct a, a0; try discriminate E; reflexivity.
      + destruct v; try discriminate A. destruct (get KEstimator s); try discriminate E. cbn in E. apply String.eqb_eq in E.
        left. destruct e, e0; try discriminate E; reflexivity.
      + destruct v; try discriminate A. destruct (get KLevel s); try discriminate E. cbn in E. apply String.eqb_eq in E.
        left. destruct l, l0; try discriminate E; reflexivity.
      + destruct (init_verbose_bool fs s I) as [b B]. rewrite B in *. destruct v as [j| | | | | |]; try discriminate A. destruct j; try discriminate A.
        left. destruct b, b0; try discriminate E; reflexivity.
      + destruct v as [|l| | | | |]; try discriminate A. destruct l as [|x [|y [|z l]]]; try discriminate A;
          (cbn in A; destruct (is_int x && is_int y)%bool eqn:II; [|discriminate A]); [clear A|injection A; discriminate].
        apply andb_true_iff in II as [X Y]. destruct (get KPrecision s) as [|l'| | | | |]; try discriminate E. cbn in E.
        destruct l' as [|x' [|y' [|z' l']]]; try discriminate E; cbn in E.
        * rewrite andb_false_r in E. discriminate.
        * rewrite andb_true_r in E. apply andb_true_iff in E as [E1 E2]. apply (simple_number x x' X) in E1 as (a & A1 & A2).
          apply (simple_number y y' Y) in E2 as (b & B1 & B2). right. exists x, y, x', y', a, b. auto 10.
        * rewrite !andb_false_r in E. discriminate.
    - intros [E|(x & y & x' & y' & a & b & -> & E & X & X' & Y & Y')].
      + rewrite <- E. exact (accepted_eqb k v A).
      + rewrite E. cbn. destruct k; try discriminate A. cbn in A. destruct (is_int x && is_int y)%bool eqn:II; [|discriminate A].
        apply andb_true_iff in II as [IX IY].
        rewrite (proj2 (simple_number x x' IX)), (proj2 (simple_number y y' IY)); [reflexivity|exists b; auto|exists a; auto].
  Qed.

  Lemma wants_dec k : {v | wants k v} + {~ asks k} + {asks k /\ forall v, ~ wants k v}.
  Proof.
    assert (D : forall o : option text, {t | o = Some t /\ t <> []} + {~ given o}).
    { intros [[|c t]|]; [right|left|right].
      - intros (t & E & N). injection E as <-. contradiction.
      - exists (c :: t). split; [reflexivity|discriminate].
      - intros (t & E & N). discriminate. }
    destruct k; unfold Cli_Spec.wants; cbn [Cli_Spec.asks].
    - destruct (D (a_container args)) as [[t [E N]]|N]; [|left; right; exact N].
      destruct (find (fun c => text_eqb (txt (container_name c)) (upper up (t ++ txt "_container"))) container_members) as [c|] eqn:F.
      + left; left. exists (VContainer c). split; [exists t; auto|]. exists t, c. split; [exact E|]. split; [exact (txt_eqb_find container_name _ _ _ F)|reflexivity].
      + right. split; [exists t; auto|]. intros v [_ (t' & c & E' & U & _)]. rewrite E in E'. injection E' as <-. exact (txt_eqb_find_none container_name _ _ c F (all_containers c) U).
    - destruct (D (a_algorithm args)) as [[t [E N]]|N]; [|left; right; exact N].
      destruct (find (fun c => text_eqb (txt (algorithm_name c)) (upper up t)) algorithm_members) as [c|] eqn:F.
      + left; left. exists (VAlgorithm c). split; [exists t; auto|]. exists t, c. split; [exact E|]. split; [exact (txt_eqb_find algorithm_name _ _ _ F)|reflexivity].
      + right. split; [exists t; auto|]. intros v [_ (t' & c & E' & U & _)]. rewrite E in E'. injection E' as <-. exact (txt_eqb_find_none algorithm_name _ _ c F (all_algorithms c) U).
    - destruct (D (a_estimator args)) as [[t [E N]]|N]; [|left; right; exact N].
      destruct (find (fun c => text_eqb (txt (estimator_name c)) (upper up (t ++ txt "_estimator"))) estimator_members) as [c|] eqn:F.
      + left; left. exists (VEstimator c). split; [exists t; auto|]. exists t, c. split; [exact E|]. split; [exact (txt_eqb_find estimator_name _ _ _ F)|reflexivity].
      + right. split; [exists t; auto|]. intros v [_ (t' & c & E' & U & _)]. rewrite E in E'. injection E' as <-. exact (txt_eqb_find_none estimator_name _ _ c F (all_estimators c) U).
    - destruct (D (a_level args)) as [[t [E N]]|N]; [|left; right; exact N].
      destruct (find (fun c => text_eqb (txt (level_name c)) (upper up t)) level_members) as [c|] eqn:F.
      + left; left. exists (VLevel c). split; [exists t; auto|]. exists t, c. split; [exact E|]. split; [exact (txt_eqb_find level_name _ _ _ F)|reflexivity].
      + right. split; [exists t; auto|]. intros v [_ (t' & c & E' & U & _)]. rewrite E in E'. injection E' as <-. exact (txt_eqb_find_none level_name _ _ c F (all_levels c) U).
    - destruct (D (a_verbose args)) as [[t [E N]]|N]; [|left; right; exact N]. left; left.
      exists (VJson (JBool (text_eqb (lower low t) (txt "true")))). split; [exists t; auto|]. exists t. eexists. split; [exact E|]. split; [apply text_eqb_eq|reflexivity].
    - destruct (a_precision args) as [p|] eqn:E; [|left; right; intros (p & C & _); discriminate].
      destruct (truthy p) eqn:T; [left; left; exists p; split; [exists p; auto|reflexivity]|left; right; intros (p' & C & T'); congruence].
  Qed.

  Lemma effect_carried k fs s s' : settings_init fs = Ok s -> effect up low args k s s' -> carried_out up low args k s s'.
  Proof.
    intros I [E N]. split; [|exact N]. intros v W. rewrite (E v W). pose proof (already_eqb k v fs s W I) as AE.
    destruct (py_eqb v (get k s)); [left|right]; (split; [|reflexivity]); [tauto|]. intro C. apply AE in C. discriminate.
  Qed.

  Lemma all_keys : NoDup [KContainer; KAlgorithm; KEstimator; KLevel; KVerbose; KPrecision].
  Proof. repeat constructor; cbn; intuition discriminate. Qed.
  Lemma in_all k : In k [KContainer; KAlgorithm; KEstimator; KLevel; KVerbose; KPrecision].
  Proof. destruct k; cbn; tauto. Qed.

  Lemma change_good fs dd dc s : good (default_file fs) dd -> good (custom_file fs) dc -> settings_init fs = Ok s ->
    (forall k, understood up low args k) ->
    exists fs' ms s' dc', run_change up low args fs = (fs', ms, Ok tt) /\ settings_init fs' = Ok s' /\
      good (default_file fs') dd /\ good (custom_file fs') dc' /\ default_file fs' = default_file fs /\
      (forall k, carried_out up low args k s s') /\
      (forall name, (forall k, asks k -> name <> key_name k) -> dget text_eqb name dc' = dget text_eqb name dc) /\
      (forall k o n, In (Changed k o n) ms <-> exists v, wants k v /\ ~ already v (get k s) /\ o = get k s /\ n = shown k (get k s) v) /\
      ((forall k v, wants k v -> already v (get k s)) -> fs' = fs /\ ms = []) /\
      (forall k v, wants k v -> py_eqb v (get k s') = true).
  Proof.
    intros GD GC I U. unfold run_change. rewrite I.
    assert (IV : inv dd dc (mkCli s fs [])) by (split; [exact GD|split; [exact GC|exact I]]).
    destruct (run_ok up low args (precise_of args pair) _ all_keys (fun k _ A => U k A) _ dd dc IV)
      as (st' & dc' & R & (GD' & GC' & I') & D' & EF & _ & NM & (ms & OUT & MS) & NOP).
    cbn [c_service c_files c_out] in *. rewrite handle_run, R. exists (c_files st'), ms, (c_service st'), dc'.
    split; [rewrite OUT; reflexivity|]. split; [exact I'|]. split; [exact GD'|]. split; [exact GC'|]. split; [exact D'|].
    split; [intro k; apply (effect_carried k fs s _ I); apply EF; apply in_all|].
    split; [intros name N; apply NM; intros k _; apply N|]. split; [|split].
    - intros k o n. rewrite MS. split.
      + intros [_ (v & W & P & E1 & E2)]. exists v. split; [exact W|]. split; [|auto]. intro C. apply (already_eqb k v fs s W I) in C. congruence.
      + intros (v & W & P & E1 & E2). split; [apply in_all|]. exists v. split; [exact W|]. split; [|auto].
        destruct (py_eqb v (get k s)) eqn:Q; [|reflexivity]. apply (already_eqb k v fs s W I) in Q. contradiction.
    - intro H. assert (ST : st' = mkCli s fs []).
      { apply NOP. intros k v _ W. apply (already_eqb k v fs s W I). exact (H k v W). }
      rewrite ST in *. split; [reflexivity|]. cbn in OUT. symmetry. exact OUT.
    - intros k v W. destruct (EF k (in_all k)) as [E _]. rewrite (E v W). destruct (py_eqb v (get k s)) eqn:P; [exact P|].
      exact (accepted_eqb k v (wants_accepted up low args (precise_of args pair) k v W)).
  Qed.

  Theorem change_spec fs s : files_ok fs -> settings_init fs = Ok s -> (forall k, understood up low args k) ->
    exists fs' ms s', run_change up low args fs = (fs', ms, Ok tt) /\ settings_init fs' = Ok s' /\
      (forall k, carried_out up low args k s s') /\
      default_file fs' = default_file fs /\
      (exists d d', contents (custom_file fs) d /\ contents (custom_file fs') d' /\
         forall name, (forall k, asks k -> name <> key_name k) -> dget text_eqb name d' = dget text_eqb name d) /\
      ((forall k v, wants k v -> already v (get k s)) -> fs' = fs /\ ms = []) /\
      run_change up low args fs' = (fs', [], Ok tt).
  Proof.
    intros FO I U. destruct (good_of_init fs s FO I) as (dd & dc & GD & GC).
    destruct (change_good fs dd dc s GD GC I U) as (fs' & ms & s' & dc' & R & I' & GD' & GC' & D' & CO & NM & _ & NOP & FIX).
    exists fs', ms, s'. split; [exact R|]. split; [exact I'|]. split; [exact CO|]. split; [exact D'|].
    split; [exists dc, dc'; split; [apply contents_holds; exact (proj1 GC)|split; [apply contents_holds; exact (proj1 GC')|exact NM]]|]. split; [exact NOP|].
    destruct (change_good fs' dd dc' s' GD' GC' I' U) as (fs2 & ms2 & s2 & dc2 & R2 & _ & _ & _ & _ & _ & _ & _ & NOP2 & _).
    destruct NOP2 as [-> ->]; [|exact R2]. intros k v W. apply (already_eqb k v fs' s' W I'). exact (FIX k v W).
  Qed.

  Theorem messages_spec fs s : files_ok fs -> settings_init fs = Ok s -> (forall k, understood up low args k) ->
    forall k o n, In (Changed k o n) (snd (fst (run_change up low args fs))) <->
      exists v, wants k v /\ ~ already v (get k s) /\ o = get k s /\ n = match k with KContainer => get k s | _ => v end.
  Proof.
    intros FO I U. destruct (good_of_init fs s FO I) as (dd & dc & GD & GC).
    destruct (change_good fs dd dc s GD GC I U) as (fs' & ms & s' & dc' & R & _ & _ & _ & _ & _ & _ & MS & _). rewrite R. exact MS.
  Qed.

  (** The first option that is not understood. *)
  Lemma split_order k : exists pre post, [KContainer; KAlgorithm; KEstimator; KLevel; KVerbose; KPrecision] = pre ++ k :: post /\
    NoDup pre /\ forall k', In k' pre <-> (position k' < position k)%nat.
  Proof.
    assert (M : forall pre, NoDup pre -> (forall k', In k' pre <-> (position k' < position k)%nat) ->
      (exists post, [KContainer; KAlgorithm; KEstimator; KLevel; KVerbose; KPrecision] = pre ++ k :: post) ->
      exists pre post, [KContainer; KAlgorithm; KEstimator; KLevel; KVerbose; KPrecision] = pre ++ k :: post /\
        NoDup pre /\ forall k', In k' pre <-> (position k' < position k)%nat).
    { intros pre N H [post E]. exists pre, post. auto. }
    destruct k; [apply (M []) | apply (M [KContainer]) | apply (M [KContainer; KAlgorithm]) | apply (M [KContainer; KAlgorithm; KEstimator])
      | apply (M [KContainer; KAlgorithm; KEstimator; KLevel]) | apply (M [KContainer; KAlgorithm; KEstimator; KLevel; KVerbose])];
      try (repeat constructor; cbn; intuition discriminate);
      try (intro k'; destruct k'; cbn; split; intro H; try lia; try tauto; intuition discriminate); try (eexists; reflexivity).
  Qed.

  Theorem unknown_spec fs s : files_ok fs -> settings_init fs = Ok s -> (exists k, ~ understood up low args k) ->
    exists k fs' ms s', asks k /\ (forall v, ~ wants k v) /\
      run_change up low args fs = (fs', ms, Err (SystemExit 2)) /\ settings_init fs' = Ok s' /\ default_file fs' = default_file fs /\
      (forall k', (position k' < position k)%nat -> understood up low args k' /\ carried_out up low args k' s s') /\
      (forall k', (position k <= position k')%nat -> get k' s' = get k' s).
  Proof.
    intros FO I [kx NU]. destruct (good_of_init fs s FO I) as (dd & dc & GD & GC).
    assert (DEC : forall k, {understood up low args k} + {asks k /\ forall v, ~ wants k v}).
    { intro k. destruct (wants_dec k) as [[[v W]|N]|B]; [left; intros _; exists v; exact W|left; intro A; contradiction|right; exact B]. }
    assert (FIRST : exists k, (asks k /\ forall v, ~ wants k v) /\ forall k', (position k' < position k)%nat -> understood up low args k').
    { assert (W : forall n kk, (position kk <= n)%nat -> ~ understood up low args kk ->
        exists k, (asks k /\ forall v, ~ wants k v) /\ forall k', (position k' < position k)%nat -> understood up low args k').
      { induction n as [n IH] using (well_founded_induction lt_wf). intros kk Hn N.
        destruct (split_order kk) as (pre & post & _ & _ & HP).
        destruct (List.Exists_dec (fun k' => ~ understood up low args k') pre) as [E|E].
        - intro k'. destruct (DEC k') as [Y|[Y Z]]; [right; intro C; exact (C Y)|left; intro C; destruct (C Y) as [v V]; exact (Z v V)].
        - apply Exists_exists in E as (k' & H1 & H2). apply HP in H1. apply (IH (position k')) with (kk := k'); [lia|lia|exact H2].
        - exists kk. split; [destruct (DEC kk) as [Y|Y]; [contradiction|exact Y]|]. intros k' H. apply HP in H.
          destruct (DEC k') as [Y|[Y Z]]; [exact Y|]. exfalso. apply E. apply Exists_exists. exists k'. split; [exact H|].
          intro C. destruct (C Y) as [v V]. exact (Z v V). }
      exact (W (position kx) kx (le_n _) NU). }
    destruct FIRST as (k & [A NW] & UP). destruct (split_order k) as (pre & post & EQ & ND & HP).
    assert (IV : inv dd dc (mkCli s fs [])) by (split; [exact GD|split; [exact GC|exact I]]).
    assert (HW : forall k', In k' pre -> asks k' -> exists v, wants k' v) by (intros k' H; apply UP; apply HP; exact H).
    destruct (run_ok up low args (precise_of args pair) pre ND HW _ dd dc IV) as (st' & dc' & R & (_ & _ & I') & D' & EF & FR & _).
    destruct (run_fail up low args (precise_of args pair) pre k post _ dd dc ND HW IV A NW) as (st1 & R1 & RF). rewrite R in R1. injection R1 as <-.
    exists k, (c_files st'), (c_out st'), (c_service st'). split; [exact A|]. split; [exact NW|].
    split; [unfold run_change; rewrite I, handle_run, EQ, RF; reflexivity|]. split; [exact I'|]. split; [exact D'|]. cbn [c_service] in *. split.
    - intros k' H. split; [exact (UP k' H)|]. apply (effect_carried k' fs s _ I). apply EF. apply HP. exact H.
    - intros k' H. apply FR. rewrite HP. lia.
  Qed.
End Run.

(** ** Names *)
Lemma lower_nocase low s t : ascii s -> ascii t -> lower low t = t -> (lower low s = t <-> nocase s t).
Proof.
  assert (L : forall s, ascii s -> lower low s = map lower_ascii s).
  { intros x A. unfold lower, map_text. induction A as [|c x Hc A IH]; [reflexivity|]. cbn [flat_map map]. apply N.ltb_lt in Hc. rewrite Hc, IH. reflexivity. }
  assert (SL : forall a b, lower_ascii a = lower_ascii b <-> same_letter a b).
  { intros a b. unfold lower_ascii, same_letter.
    destruct ((65 <=? a) && (a <=? 90))%N%bool eqn:A; destruct ((65 <=? b) && (b <=? 90))%N%bool eqn:B;
      rewrite ?andb_true_iff, ?andb_false_iff, ?N.leb_le, ?N.leb_gt in A, B; lia. }
  intros A B U. rewrite (L s A). rewrite (L t B) in U. rewrite <- U at 1. clear U. unfold nocase.
  revert t B. induction A as [|c s Hc A IH]; intros t B; destruct B as [|d t Hd B]; cbn [map].
  - split; [constructor|reflexivity].
  - split; [discriminate|intro H; inversion H].
  - split; [discriminate|intro H; inversion H].
  - split.
    + intro H. injection H as H1 H2. constructor; [apply SL; exact H1|apply IH; assumption].
    + intro H. inversion H; subst. f_equal; [apply SL; assumption|apply IH; assumption].
Qed.

Lemma ascii_txt s : forallb (fun c => N.ltb c 128) (txt s) = true -> ascii (txt s).
Proof. intro H. apply Forall_forall. intros c HI. rewrite forallb_forall in H. apply N.ltb_lt. apply H. exact HI. Qed.

Lemma upper_suffix up t suf name suffix : ascii t -> ascii (txt suf) -> ascii (txt name) ->
  upper up (txt name) = txt name -> upper up (txt suf) = txt suffix ->
  (upper up (t ++ txt suf) = txt name ++ txt suffix <-> nocase t (txt name)).
Proof.
  intros A B C U V. rewrite <- V. unfold upper, map_text in *. rewrite flat_map_app.
  assert (E : nocase t (txt name) <-> upper up t = txt name) by (symmetry; exact (upper_nocase up t (txt name) A C U)).
  rewrite E. unfold upper, map_text. split; [|intros ->; reflexivity]. intro H. apply app_inv_tail in H. exact H.
Qed.
Lemma upper_length up s : ascii s -> List.length (upper up s) = List.length s.
Proof. intro A. rewrite (upper_ascii_text up s A). apply map_length. Qed.
Lemma ascii_app s t : ascii s -> ascii t -> ascii (s ++ t).
Proof. intros A B. apply Forall_app. auto. Qed.

Theorem names_spec up low args k t v : In k [KContainer; KAlgorithm; KEstimator; KLevel] ->
  option_of args k = Some t -> t <> [] -> ascii t ->
  (wants up low args k v <-> exists n, In (n, v) (known k) /\ nocase t (txt n)).
Proof.
  intros HI E Ne A. unfold wants.
  assert (G : forall o, o = Some t -> given o) by (intros o ->; exists t; auto).
  assert (AT : forall s, forallb (fun c => N.ltb c 128) (txt s) = true -> ascii (txt s)) by exact ascii_txt.
  destruct HI as [<-|[<-|[<-|[<-|[]]]]]; cbn [option_of asks known] in *.
  - assert (R : upper up (t ++ txt "_container") = txt "ROUNDING_CONTAINER" <-> nocase t (txt "ROUNDING")).
    { change (txt "ROUNDING_CONTAINER") with (txt "ROUNDING" ++ txt "_CONTAINER"). apply upper_suffix; try exact A; try (apply AT; reflexivity); reflexivity. }
    assert (P : upper up (t ++ txt "_container") = txt "PLAIN_CONTAINER" <-> nocase t (txt "PLAIN")).
    { change (txt "PLAIN_CONTAINER") with (txt "PLAIN" ++ txt "_CONTAINER"). apply upper_suffix; try exact A; try (apply AT; reflexivity); reflexivity. }
    split.
    + intros [_ (t' & c & E' & U & ->)]. rewrite E in E'. injection E' as <-. destruct c; cbn [container_name] in U.
      * apply R in U. exists "ROUNDING"%string. split; [left; reflexivity|exact U].
      * apply P in U. exists "PLAIN"%string. split; [right; left; reflexivity|exact U].
      * apply (f_equal (@List.length _)) in U. rewrite upper_length in U by (apply ascii_app; [exact A|apply AT; reflexivity]).
        rewrite app_length in U. cbn in U. lia.
    + intros (n & [H|[H|[]]] & NC); injection H as <- <-; (split; [exact (G _ E)|]); exists t.
      * exists ROUNDING_CONTAINER. split; [exact E|]. split; [apply R; exact NC|reflexivity].
      * exists PLAIN_CONTAINER. split; [exact E|]. split; [apply P; exact NC|reflexivity].
  - assert (R : forall c, upper up t = txt (algorithm_name c) <-> nocase t (txt (algorithm_name c))).
    { intro c. apply upper_nocase; [exact A| |]; destruct c; try (apply AT; reflexivity); reflexivity. }
    split.
    + intros [_ (t' & c & E' & U & ->)]. rewrite E in E'. injection E' as <-. apply R in U. exists (algorithm_name c).
      split; [destruct c; cbn; tauto|exact U].
    + intros (n & H & NC). split; [exact (G _ E)|]. exists t.
      assert (C : exists c, n = algorithm_name c /\ v = VAlgorithm c).
      { destruct H as [H|[H|[H|[H|[H|[]]]]]]; injection H as <- <-; eexists; (split; [|reflexivity]); reflexivity. }
      destruct C as (c & -> & ->). exists c. split; [exact E|]. split; [apply R; exact NC|reflexivity].
  - assert (R : upper up (t ++ txt "_estimator") = txt "SUMMATION_ESTIMATOR" <-> nocase t (txt "SUMMATION")).
    { change (txt "SUMMATION_ESTIMATOR") with (txt "SUMMATION" ++ txt "_ESTIMATOR"). apply upper_suffix; try exact A; try (apply AT; reflexivity); reflexivity. }
    assert (P : upper up (t ++ txt "_estimator") = txt "QUADRATURE_ESTIMATOR" <-> nocase t (txt "QUADRATURE")).
    { change (txt "QUADRATURE_ESTIMATOR") with (txt "QUADRATURE" ++ txt "_ESTIMATOR"). apply upper_suffix; try exact A; try (apply AT; reflexivity); reflexivity. }
    split.
    + intros [_ (t' & c & E' & U & ->)]. rewrite E in E'. injection E' as <-. destruct c; cbn [estimator_name] in U.
      * apply R in U. exists "SUMMATION"%string. split; [left; reflexivity|exact U].
      * apply P in U. exists "QUADRATURE"%string. split; [right; left; reflexivity|exact U].
      * apply (f_equal (@List.length _)) in U. rewrite upper_length in U by (apply ascii_app; [exact A|apply AT; reflexivity]).
        rewrite app_length in U. cbn in U. lia.
    + intros (n & [H|[H|[]]] & NC); injection H as <- <-; (split; [exact (G _ E)|]); exists t.
      * exists SUMMATION_ESTIMATOR. split; [exact E|]. split; [apply R; exact NC|reflexivity].
      * exists QUADRATURE_ESTIMATOR. split; [exact E|]. split; [apply P; exact NC|reflexivity].
  - assert (R : forall c, upper up t = txt (level_name c) <-> nocase t (txt (level_name c))).
    { intro c. apply upper_nocase; [exact A| |]; destruct c; try (apply AT; reflexivity); reflexivity. }
    split.
    + intros [_ (t' & c & E' & U & ->)]. rewrite E in E'. injection E' as <-. apply R in U. exists (level_name c).
      split; [destruct c; cbn; tauto|exact U].
    + intros (n & H & NC). split; [exact (G _ E)|]. exists t.
      assert (C : exists c, n = level_name c /\ v = VLevel c).
      { destruct H as [H|[H|[H|[H|[H|[H|[]]]]]]]; injection H as <- <-; eexists; (split; [|reflexivity]); reflexivity. }
      destruct C as (c & -> & ->). exists c. split; [exact E|]. split; [apply R; exact NC|reflexivity].
Qed.

Theorem verbosity_spec up low args t : a_verbose args = Some t -> t <> [] -> ascii t ->
  (nocase t (txt "true") -> wants up low args KVerbose (VJson (JBool true))) /\
  (~ nocase t (txt "true") -> wants up low args KVerbose (VJson (JBool false))).
Proof.
  intros E N A. assert (G : given (a_verbose args)) by (exists t; auto).
  assert (R : lower low t = txt "true" <-> nocase t (txt "true")).
  { apply lower_nocase; [exact A|apply ascii_txt; reflexivity|reflexivity]. }
  split; intro H; (split; [exact G|]); exists t; eexists; (split; [exact E|]); (split; [|reflexivity]).
  - split; [intros _; apply R; exact H|reflexivity].
  - split; [discriminate|]. intro C. apply R in C. contradiction.
Qed.

(** ** What the parser lets through *)
Definition parser_value (k : key) (v : pyval) : Prop :=
  match k with KContainer => concrete_container v = true | KAlgorithm => concrete_algorithm v = true | KEstimator => concrete_estimator v = true | _ => True end.
Lemma from_parser_understood up low args k : from_parser args -> asks args k -> exists v, wants up low args k v /\ parser_value k v.
Proof.
  intros (P1 & P2 & P3 & P4 & P5 & P6) A. unfold one_of in *. pose proof A as A'. destruct k; cbn [asks] in A.
  - destruct A as (t & E & N). rewrite E in P1. destruct P1 as [->|(c & [<-|[]] & ->)]; [contradiction|].
    eexists. split; [split; [exact A'|]|]; [exists (txt "rounding"), ROUNDING_CONTAINER; repeat split; try exact E; reflexivity|reflexivity].
  - destruct A as (t & E & N). rewrite E in P2. destruct P2 as [->|(c & HI & ->)]; [contradiction|].
    destruct HI as [<-|[<-|[<-|[<-|[]]]]].
    + eexists. split; [split; [exact A'|]|]; [exists (txt "newton_grid"), NEWTON_GRID; repeat split; try exact E; reflexivity|reflexivity].
    + eexists. split; [split; [exact A'|]|]; [exists (txt "simple_argument"), SIMPLE_ARGUMENT; repeat split; try exact E; reflexivity|reflexivity].
    + eexists. split; [split; [exact A'|]|]; [exists (txt "simple_argument_newton"), SIMPLE_ARGUMENT_NEWTON; repeat split; try exact E; reflexivity|reflexivity].
    + eexists. split; [split; [exact A'|]|]; [exists (txt "associated_polynomial"), ASSOCIATED_POLYNOMIAL; repeat split; try exact E; reflexivity|reflexivity].
  - destruct A as (t & E & N). rewrite E in P3. destruct P3 as [->|(c & [<-|[<-|[]]] & ->)]; [contradiction| |].
    + eexists. split; [split; [exact A'|]|]; [exists (txt "summation"), SUMMATION_ESTIMATOR; repeat split; try exact E; reflexivity|reflexivity].
    + eexists. split; [split; [exact A'|]|]; [exists (txt "quadrature"), QUADRATURE_ESTIMATOR; repeat split; try exact E; reflexivity|reflexivity].
  - destruct A as (t & E & N). rewrite E in P4. destruct P4 as [->|(c & HI & ->)]; [contradiction|].
    assert (H : exists l, upper up (txt c) = txt (level_name l)).
    { destruct HI as [<-|[<-|[<-|[<-|[<-|[]]]]]]; [exists DEBUG|exists INFO|exists WARNING|exists ERROR|exists CRITICAL]; reflexivity. }
    destruct H as [l H]. exists (VLevel l). split; [split; [exact A'|]|exact I]. exists (txt c), l. auto.
  - destruct (wants_dec up low args KVerbose) as [[[v W]|C]|[_ C]]; [exists v; split; [exact W|exact I]|contradiction|].
    exfalso. destruct A as (t & E & N). eapply C. split; [exact A'|]. exists t. eexists. split; [exact E|]. split; [apply text_eqb_eq|reflexivity].
  - destruct A as (p & E & T). exists p. split; [split; [exact A'|exact E]|exact I].
Qed.
Lemma from_parser_pair args : from_parser args -> precision_pair args.
Proof. intros (_ & _ & _ & _ & _ & P) p E _. rewrite E in P. destruct P as (x & y & ->). exists (VJson (JInt x)), (VJson (JInt y)). auto. Qed.

Lemma asks_dec args k : asks args k \/ ~ asks args k.
Proof.
  destruct (wants_dec (fun _ => []) (fun _ => []) args k) as [[[v W]|N]|[A _]]; [left; exact (proj1 W)|right; exact N|left; exact A].
Qed.

Lemma parsed_good up low args fs dd dc s : from_parser args -> good (default_file fs) dd -> good (custom_file fs) dc -> settings_init fs = Ok s ->
  exists fs' ms s' dc', run_change up low args fs = (fs', ms, Ok tt) /\ good (default_file fs') dd /\ good (custom_file fs') dc' /\
    settings_init fs' = Ok s' /\ (usable s -> usable s').
Proof.
  intros P GD GC I.
  assert (U : forall k, understood up low args k).
  { intros k A. destruct (from_parser_understood up low args k P A) as (v & W & _). exists v. exact W. }
  destruct (change_good up low args (from_parser_pair args P) fs dd dc s GD GC I U) as (fs' & ms & s' & dc' & R & I' & GD' & GC' & _ & CO & _).
  exists fs', ms, s', dc'. split; [exact R|]. split; [exact GD'|]. split; [exact GC'|]. split; [exact I'|]. intros (U1 & U2 & U3).
  assert (K : forall k, get k s' = get k s \/ parser_value k (get k s')).
  { intro k. destruct (CO k) as [C1 C2]. destruct (asks_dec args k) as [A|A]; [|left; exact (C2 A)].
    destruct (from_parser_understood up low args k P A) as (v & W & V). destruct (C1 v W) as [[_ E]|[_ E]]; [left; exact E|right; rewrite E; exact V]. }
  split; [|split].
  - destruct (K KContainer) as [->|H]; [exact U1|exact H].
  - destruct (K KAlgorithm) as [->|H]; [exact U2|exact H].
  - destruct (K KEstimator) as [->|H]; [exact U3|exact H].
Qed.

Theorem parsed_commands up low cmds fs s : files_ok fs -> settings_init fs = Ok s -> Forall from_parser cmds -> usable s ->
  exists s', settings_init (runs up low cmds fs) = Ok s' /\ usable s' /\
  (forall pre c post, cmds = pre ++ c :: post -> snd (run_change up low c (runs up low pre fs)) = Ok tt) /\
  forall depth c, (4 <= depth)%nat ->
    exists o, new_finder depth (settings_init (runs up low cmds fs)) c (VContainer DEFAULT_CONTAINER) (VAlgorithm DEFAULT_ALGORITHM)
                (VEstimator DEFAULT_ESTIMATOR) py_none None None = Ok o.
Proof.
  intros FO I. destruct (good_of_init fs s FO I) as (dd & dc & GD & GC). clear FO.
  assert (M : forall cmds fs dc s, good (default_file fs) dd -> good (custom_file fs) dc -> settings_init fs = Ok s -> Forall from_parser cmds -> usable s ->
     (exists s', settings_init (runs up low cmds fs) = Ok s' /\ usable s') /\
     (forall pre c post, cmds = pre ++ c :: post -> snd (run_change up low c (runs up low pre fs)) = Ok tt)).
  { clear. induction cmds as [|a cmds IH]; intros fs dc s GD GC I P U.
    - split; [exists s; auto|]. intros pre c post E. destruct pre; discriminate E.
    - inversion P as [|? ? Pa Pc]; subst. destruct (parsed_good up low a fs dd dc s Pa GD GC I) as (fs' & ms & s' & dc' & R & GD' & GC' & I' & US).
      destruct (IH fs' dc' s' GD' GC' I' Pc (US U)) as [H1 H2]. unfold runs in *. cbn [fold_left]. rewrite R. cbn [fst]. split; [exact H1|].
      intros pre c post E. destruct pre as [|a' pre].
      + injection E as <- <-. cbn [fold_left]. rewrite R. reflexivity.
      + injection E as <- E. cbn [fold_left]. rewrite R. cbn [fst]. exact (H2 pre c post E). }
  intros P U. destruct (M cmds fs dc s GD GC I P U) as [(s' & I' & U') RES]. exists s'. split; [exact I'|]. split; [exact U'|]. split; [exact RES|].
  intros depth c D. rewrite I'. destruct U' as (U1 & U2 & U3).
  destruct (new_finder_ok depth s' c (VContainer DEFAULT_CONTAINER) (VAlgorithm DEFAULT_ALGORITHM) (VEstimator DEFAULT_ESTIMATOR) py_none None None
    (init_level _ _ I') D) as (o & H & _); unfold meant; cbn [concrete_container concrete_algorithm concrete_estimator]; try assumption.
  - intros _. exact U3.
  - exists o. exact H.
Qed.

(** ** Witnesses *)
Definition noargs : settings_args := mkArgs false None None None None None None.
(** The container message shows the old value as the new one. *)
Lemma container_message : exists up low args fs' s',
  run_change up low args fs0 = (fs', [Changed KContainer (VContainer ROUNDING_CONTAINER) (VContainer ROUNDING_CONTAINER)], Ok tt) /\
  settings_init fs' = Ok s' /\ get KContainer s' = VContainer PLAIN_CONTAINER.
Proof.
  exists (fun _ => []), (fun _ => []), (mkArgs false (Some (txt "plain")) None None None None None).
  eexists. eexists. split; [vm_compute; reflexivity|]. split; [vm_compute; reflexivity|reflexivity].
Qed.
(** A command that fails has changed the settings before. *)
Lemma not_atomic : exists up low args fs' ms s',
  run_change up low args fs0 = (fs', ms, Err (SystemExit 2)) /\ settings_init fs' = Ok s' /\ get KAlgorithm s' = VAlgorithm NEWTON_GRID /\
  get KAlgorithm service0 = VAlgorithm SIMPLE_ARGUMENT.
Proof.
  exists (fun _ => []), (fun _ => []), (mkArgs false None (Some (txt "Newton_Grid")) None (Some (txt "loud")) None None).
  eexists. eexists. eexists. split; [vm_compute; reflexivity|]. split; [vm_compute; reflexivity|]. split; reflexivity.
Qed.
(** A typo in the verbosity switches it off. *)
Lemma typo : exists up low fs' ms s',
  run_change up low (mkArgs false None None None None (Some (txt "treu")) None) fs0 = (fs', ms, Ok tt) /\
  get KVerbose service0 = VJson (JBool true) /\ settings_init fs' = Ok s' /\ get KVerbose s' = VJson (JBool false).
Proof.
  exists (fun _ => []), (fun _ => []). eexists. eexists. eexists. split; [vm_compute; reflexivity|]. split; [reflexivity|]. split; [vm_compute; reflexivity|]. reflexivity.
Qed.
(** The controller (not the parser) accepts "default" as default algorithm; then no finder can be created. *)
Lemma default_algorithm : exists up low fs' ms,
  run_change up low (mkArgs false None (Some (txt "default")) None None None None) fs0 = (fs', ms, Ok tt) /\
  forall depth c, new_finder depth (settings_init fs') c (VContainer DEFAULT_CONTAINER) (VAlgorithm DEFAULT_ALGORITHM)
                (VEstimator DEFAULT_ESTIMATOR) py_none None None = Err RecursionError.
Proof.
  exists (fun _ => []), (fun _ => []). eexists. eexists. split; [vm_compute; reflexivity|]. intros depth c.
  match goal with |- new_finder _ (settings_init ?f) _ _ _ _ _ _ _ = _ => assert (E : exists s, settings_init f = Ok s /\ get KAlgorithm s = VAlgorithm DEFAULT_ALGORITHM) end.
  { eexists. split; [vm_compute; reflexivity|reflexivity]. }
  destruct E as (s & E & G). rewrite E. unfold new_finder. rewrite algorithm_diverges; [reflexivity|exact (init_level _ _ E)|].
  unfold meant. cbn [concrete_algorithm]. rewrite G. reflexivity.
Qed.
