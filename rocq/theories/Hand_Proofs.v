(** * What settings files mean: proofs *)
From Verif Require Import PyBase Json_Model Json_Proofs JsonText_Spec JsonText_Proofs Settings_Model Settings_Spec Settings_Proofs Settings_Proofs2 Settings_Proofs3 Hand_Spec.
Open Scope list_scope.

Lemma word_key k : word_of k = key_name k.
Proof. destruct k; reflexivity. Qed.
Lemma says_over dd dc k : says dd dc k = over dc dd k.
Proof. unfold says, over. rewrite word_key. reflexivity. Qed.

Lemma find_word {A} (w : A -> string) (eq_dec : forall a b : A, {a = b} + {a <> b}) (l : list A) (j : json) (a : A) :
  (forall a b, w a = w b -> a = b) -> (forall a, In a l) ->
  (find (fun c => str_is (w c) j) l = Some a <-> j = JStr (txt (w a))).
Proof.
  intros Inj All. split.
  - intro H. apply find_some in H as [_ H]. unfold str_is in H. destruct j; try discriminate. apply text_eqb_eq in H. subst. reflexivity.
  - intros ->. destruct (find (fun c => str_is (w c) (JStr (txt (w a)))) l) as [b|] eqn:F.
    + apply find_some in F as [_ F]. cbn [str_is] in F. apply text_eqb_eq in F. f_equal. apply Inj.
      clear - F. revert F. generalize (w a). induction (w b) as [|c s IH]; intros [|d u] F; try reflexivity; try discriminate. unfold txt in F. cbn in F. injection F as F1 F2.
      f_equal; [|apply IH; exact F2]. rewrite <- (Ascii.ascii_N_embedding c), <- (Ascii.ascii_N_embedding d). congruence.
    + exfalso. pose proof (find_none _ _ F a (All a)) as N. cbn [str_is] in N. rewrite (proj2 (text_eqb_eq _ _) eq_refl) in N. discriminate.
Qed.

Lemma mantissa_false t : nonzero_mantissa t = false <->
  exists u v, t = u ++ v /\ (v = [] \/ exists c v', v = c :: v' /\ (c = 101 \/ c = 69)%N) /\
    Forall (fun c => ~ (49 <= c <= 57)%N /\ c <> 73%N /\ c <> 78%N /\ c <> 101%N /\ c <> 69%N) u.
Proof.
  induction t as [|c t IH]; cbn [nonzero_mantissa].
  - split; [intros _; exists [], []; repeat split; [now left|constructor]|reflexivity].
  - destruct (N.eqb c 101 || N.eqb c 69)%bool eqn:E.
    + split; [intros _|reflexivity]. apply Bool.orb_true_iff in E. rewrite !N.eqb_eq in E. exists [], (c :: t). split; [reflexivity|]. split; [right; exists c, t; auto|constructor].
    + apply Bool.orb_false_iff in E as [E1 E2]. apply N.eqb_neq in E1, E2.
      destruct (N.leb 49 c && N.leb c 57 || N.eqb c 73 || N.eqb c 78)%bool eqn:D.
      * split; [discriminate|]. intros (u & v & Et & Hv & F). exfalso.
        assert (D' : (49 <= c <= 57)%N \/ c = 73%N \/ c = 78%N).
        { apply Bool.orb_true_iff in D as [D|D]; [apply Bool.orb_true_iff in D as [D|D]|].
          - apply andb_true_iff in D as [A B]. apply N.leb_le in A, B. left. split; assumption.
          - apply N.eqb_eq in D. tauto.
          - apply N.eqb_eq in D. tauto. }
        destruct u as [|d u].
        -- cbn [app] in Et. subst v. destruct Hv as [Hv|(c' & v' & Hv & K)]; [discriminate|]. injection Hv as <- <-. destruct K; contradiction.
        -- injection Et as <- ->. inversion F as [|? ? G _]; subst. destruct G as (G1 & G2 & G3 & _). tauto.
      * rewrite IH. apply Bool.orb_false_iff in D as [D D3]. apply Bool.orb_false_iff in D as [D1 D2]. apply N.eqb_neq in D2, D3.
        assert (D' : ~ (49 <= c <= 57)%N) by (intros [A B]; apply N.leb_le in A, B; rewrite A, B in D1; discriminate).
        split.
        -- intros (u & v & -> & Hv & F). exists (c :: u), v. split; [reflexivity|]. split; [exact Hv|]. constructor; [tauto|exact F].
        -- intros (u & v & Et & Hv & F). destruct u as [|d u].
           ++ cbn [app] in Et. subst v. destruct Hv as [Hv|(c' & v' & Hv & K)]; [discriminate|]. injection Hv as <- <-. destruct K; contradiction.
           ++ injection Et as <- ->. inversion F; subst. exists u, v. split; [reflexivity|]. split; assumption.
Qed.

Lemma truthy_false j : truthy (loaded j) = false <-> j = JNull \/ counts_as_false j.
Proof.
  unfold counts_as_false. destruct j as [|b|z|t|s|l|d]; cbn [loaded truthy].
  - tauto.
  - split; [intros ->; tauto|]. intros [H|[H|[H|[H|[H|[H|(t & u & H & _)]]]]]]; try discriminate. congruence.
  - rewrite Bool.negb_false_iff, Z.eqb_eq. split; [intros ->; tauto|]. intros [H|[H|[H|[H|[H|[H|(t & u & H & _)]]]]]]; try discriminate. congruence.
  - rewrite mantissa_false. split.
    + intros (u & v & -> & H). right. do 5 right. exists u, v. split; [reflexivity|exact H].
    + intros [H|[H|[H|[H|[H|[H|(u & v & H & K)]]]]]]; try discriminate. injection H as ->. exists u, v. split; [reflexivity|exact K].
  - destruct s; split; try tauto; try discriminate. intros [H|[H|[H|[H|[H|[H|(t & u & H & _)]]]]]]; discriminate.
  - destruct l; cbn [map]; split; try tauto; try discriminate. intros [H|[H|[H|[H|[H|[H|(t & u & H & _)]]]]]]; discriminate.
  - destruct d; split; try tauto; try discriminate. intros [H|[H|[H|[H|[H|[H|(t & u & H & _)]]]]]]; discriminate.
Qed.

Lemma decode_reads k j v : decode k (Some j) = Some v <-> reads k j v.
Proof.
  destruct k; cbn [decode reads].
  - assert (F : forall c, find_container j = Some c <-> j = JStr (container_word c)).
    { intro c. apply (find_word container_value ltac:(decide equality) container_members j c); [intros a b; destruct a, b; try reflexivity; discriminate|intro a; destruct a; cbn; tauto]. }
    destruct (find_container j) as [c|] eqn:E; cbn [option_map].
    + split; [intro H; injection H as <-; exists c; split; [apply F; reflexivity|reflexivity]|]. intros (c' & H & ->). apply F in H. congruence.
    + split; [discriminate|]. intros (c' & H & ->). apply F in H. discriminate.
  - assert (F : forall c, find_algorithm j = Some c <-> j = JStr (algorithm_word c)).
    { intro c. apply (find_word algorithm_value ltac:(decide equality) algorithm_members j c); [intros a b; destruct a, b; try reflexivity; discriminate|intro a; destruct a; cbn; tauto]. }
    destruct (find_algorithm j) as [c|] eqn:E; cbn [option_map].
    + split; [intro H; injection H as <-; exists c; split; [apply F; reflexivity|reflexivity]|]. intros (c' & H & ->). apply F in H. congruence.
    + split; [discriminate|]. intros (c' & H & ->). apply F in H. discriminate.
  - assert (F : forall c, find_estimator j = Some c <-> j = JStr (estimator_word c)).
    { intro c. apply (find_word estimator_value ltac:(decide equality) estimator_members j c); [intros a b; destruct a, b; try reflexivity; discriminate|intro a; destruct a; cbn; tauto]. }
    destruct (find_estimator j) as [c|] eqn:E; cbn [option_map].
    + split; [intro H; injection H as <-; exists c; split; [apply F; reflexivity|reflexivity]|]. intros (c' & H & ->). apply F in H. congruence.
    + split; [discriminate|]. intros (c' & H & ->). apply F in H. discriminate.
  - assert (F : forall c, find_level (loaded j) = Some c <-> j = JStr (level_word c)).
    { intro c. unfold find_level. destruct (match j with JList _ => true | _ => false end) eqn:L.
      - destruct j; try discriminate. cbn [loaded]. split; discriminate.
      - replace (loaded j) with (VJson j) by (destruct j; try reflexivity; discriminate).
        apply (find_word level_name ltac:(decide equality) level_members j c); [intros a b; destruct a, b; try reflexivity; discriminate|intro a; destruct a; cbn; tauto]. }
    destruct (find_level (loaded j)) as [c|] eqn:E; cbn [option_map].
    + split; [intro H; injection H as <-; exists c; split; [apply F; reflexivity|reflexivity]|]. intros (c' & H & ->). apply F in H. congruence.
    + split; [discriminate|]. intros (c' & H & ->). apply F in H. discriminate.
  - pose proof (truthy_false j) as T.
    assert (E : init_verbose (Some (loaded j)) = match j with JNull => None | _ => Some (VJson (JBool (truthy (loaded j)))) end) by (destruct j; reflexivity).
    rewrite E. clear E. split.
    + intro H. destruct (match j with JNull => true | _ => false end) eqn:N; [destruct j; discriminate|].
      assert (Nj : j <> JNull) by (intros ->; discriminate). split; [exact Nj|]. exists (truthy (loaded j)). split; [destruct j; congruence|]. tauto.
    + intros [Nj (b & -> & B)]. assert (b = truthy (loaded j)) as ->.
      { destruct (truthy (loaded j)); destruct b; try reflexivity; exfalso; [assert (true = false) by tauto|assert (true = false) by tauto]; discriminate. }
      destruct j; congruence.
  - unfold init_precision. destruct j as [|b|z|t|s|l|d]; cbn [loaded].
    1-5,7: split; [discriminate|intros (x & y & more & H & _); discriminate].
    destruct l as [|x [|y more]]; cbn [map]; [split; [discriminate|intros (x & y & more & H & _); discriminate]|split; [discriminate|intros (x' & y & more & H & _); discriminate]|].
    split; [intro H; injection H as <-; exists x, y, more; split; reflexivity|]. intros (x' & y' & more' & H & ->). injection H as -> -> ->. reflexivity.
Qed.

Lemma files_read fs dd dc s : files_ok fs -> contents (default_file fs) dd -> contents (custom_file fs) dc ->
  (settings_init fs = Ok s <-> forall k, exists j, says dd dc k = Some j /\ reads k j (get k s)).
Proof.
  intros [T1 T2] C1 C2. rewrite (init_iff fs dd dc s (good_of _ _ T1 C1) (good_of _ _ T2 C2)). split; intros H k; specialize (H k).
  - rewrite says_over. destruct (over dc dd k) as [j|]; [|discriminate]. exists j. split; [reflexivity|]. apply decode_reads. exact H.
  - destruct H as (j & E & R). rewrite says_over in E. rewrite E. apply decode_reads. exact R.
Qed.
Lemma readable_files fs dd dc : files_ok fs -> contents (default_file fs) dd -> contents (custom_file fs) dc ->
  ((exists s, settings_init fs = Ok s) <-> forall k, exists j v, says dd dc k = Some j /\ reads k j v).
Proof.
  intros F C1 C2. split.
  - intros [s H] k. destruct (proj1 (files_read fs dd dc s F C1 C2) H k) as (j & E & R). exists j, (get k s). split; assumption.
  - intro H. destruct (H KContainer) as (j1 & v1 & E1 & R1), (H KAlgorithm) as (j2 & v2 & E2 & R2), (H KEstimator) as (j3 & v3 & E3 & R3),
      (H KLevel) as (j4 & v4 & E4 & R4), (H KVerbose) as (j5 & v5 & E5 & R5), (H KPrecision) as (j6 & v6 & E6 & R6).
    exists (mkService v1 v2 v3 v4 v5 v6). apply (files_read fs dd dc _ F C1 C2). intros []; eexists; split; eassumption.
Qed.

(** ** Errors *)
Lemma init_cases fs dd dc : good (default_file fs) dd -> good (custom_file fs) dc ->
  settings_init fs =
  match over dc dd KContainer, over dc dd KAlgorithm, over dc dd KEstimator with
  | Some jc, Some ja, Some je =>
      match find_container jc, find_algorithm ja, find_estimator je with
      | Some c, Some a, Some e =>
          match over dc dd KLevel with
          | None => Err KeyError
          | Some jl =>
              match init_precision (option_map loaded (over dc dd KPrecision)) with
              | Err x => Err x
              | Ok prec =>
                  match find_level (loaded jl), init_verbose (option_map loaded (over dc dd KVerbose)), prec with
                  | Some l, Some b, Some p => Ok (mkService (VContainer c) (VAlgorithm a) (VEstimator e) (VLevel l) b p)
                  | _, _, _ => Err InvalidSettingException
                  end
              end
          end
      | _, _, _ => Err InvalidSettingException
      end
  | _, _, _ => Err KeyError
  end.
Proof.
  intros GD GC. unfold settings_init, core_init.
  destruct (load_core_good _ _ [] GD) as (s1 & -> & H1). cbn [bind].
  destruct (load_core_good _ _ s1 GC) as (s2 & -> & H2). cbn [bind].
  destruct (load_settings_good _ _ [] GD) as (s3 & E3 & H3).
  destruct (load_settings_good _ _ s3 GC) as (s4 & E4 & H4).
  assert (HC : forall k, is_core_key k = true -> dget text_eqb (key_name k) s2 = over dc dd k).
  { intros k K. unfold over. rewrite H2 by (rewrite is_core_name; exact K). destruct (dget text_eqb (key_name k) dc); [reflexivity|].
    rewrite H1 by (rewrite is_core_name; exact K). destruct (dget text_eqb (key_name k) dd); reflexivity. }
  assert (HS : forall k, is_core_key k = false -> dget text_eqb (key_name k) s4 = option_map loaded (over dc dd k)).
  { intros k K. unfold over. rewrite H4 by (rewrite is_setting_name, K; reflexivity).
    destruct (dget text_eqb (key_name k) dc); [reflexivity|].
    rewrite H3 by (rewrite is_setting_name, K; reflexivity). destruct (dget text_eqb (key_name k) dd); reflexivity. }
  rewrite !index_eq, !HC by reflexivity. rewrite E3. cbn [bind]. rewrite E4. cbn [bind]. rewrite index_eq, !HS by reflexivity. clear.
  set (g := over dc dd). clearbody g.
  destruct (g KContainer) as [jc|]; [|reflexivity]. cbn [bind]. destruct (g KAlgorithm) as [ja|]; [|reflexivity]. cbn [bind].
  destruct (g KEstimator) as [je|]; [|reflexivity]. cbn [bind]. destruct (find_container jc); [|reflexivity]. destruct (find_algorithm ja); [|reflexivity].
  destruct (find_estimator je); [|reflexivity]. cbn [bind fst snd]. destruct (g KLevel); [|reflexivity]. cbn [bind option_map].
  destruct (init_precision _); reflexivity.
Qed.

Lemma unread_error fs dd dc e : files_ok fs -> contents (default_file fs) dd -> contents (custom_file fs) dc -> settings_init fs = Err e ->
  (e = KeyError /\ exists k, says dd dc k = None /\ (k = KContainer \/ k = KAlgorithm \/ k = KEstimator \/ k = KLevel)) \/
  (e = IndexError /\ exists l, says dd dc KPrecision = Some (JList l) /\ (List.length l < 2)%nat) \/
  (e = InvalidSettingException /\ exists k, forall j, says dd dc k = Some j -> forall v, ~ reads k j v).
Proof.
  intros [T1 T2] C1 C2. rewrite (init_cases fs dd dc (good_of _ _ T1 C1) (good_of _ _ T2 C2)).
  pose proof (says_over dd dc) as SO.
  assert (Bad : forall k, decode k (over dc dd k) = None -> exists k, forall j, says dd dc k = Some j -> forall v, ~ reads k j v).
  { intros k D. exists k. intros j Sj v R. rewrite SO in Sj. rewrite Sj in D. apply decode_reads in R. congruence. }
  destruct (over dc dd KContainer) as [jc|] eqn:EC; [|intro H; injection H as <-; left; split; [reflexivity|]; exists KContainer; rewrite SO; tauto].
  destruct (over dc dd KAlgorithm) as [ja|] eqn:EA; [|intro H; injection H as <-; left; split; [reflexivity|]; exists KAlgorithm; rewrite SO; tauto].
  destruct (over dc dd KEstimator) as [je|] eqn:EE; [|intro H; injection H as <-; left; split; [reflexivity|]; exists KEstimator; rewrite SO; tauto].
  destruct (find_container jc) as [c|] eqn:FC; [|intro H; injection H as <-; right; right; split; [reflexivity|]; apply (Bad KContainer); rewrite EC; cbn [decode]; rewrite FC; reflexivity].
  destruct (find_algorithm ja) as [a|] eqn:FA; [|intro H; injection H as <-; right; right; split; [reflexivity|]; apply (Bad KAlgorithm); rewrite EA; cbn [decode]; rewrite FA; reflexivity].
  destruct (find_estimator je) as [es|] eqn:FE; [|intro H; injection H as <-; right; right; split; [reflexivity|]; apply (Bad KEstimator); rewrite EE; cbn [decode]; rewrite FE; reflexivity].
  destruct (over dc dd KLevel) as [jl|] eqn:EL; [|intro H; injection H as <-; left; split; [reflexivity|]; exists KLevel; rewrite SO; tauto].
  destruct (init_precision (option_map loaded (over dc dd KPrecision))) as [p|x] eqn:P.
  - destruct (find_level (loaded jl)) as [l|] eqn:FL; [|intro H; injection H as <-; right; right; split; [reflexivity|]; apply (Bad KLevel); rewrite EL; cbn [decode]; rewrite FL; reflexivity].
    destruct (init_verbose _) as [b|] eqn:FV; [|intro H; injection H as <-; right; right; split; [reflexivity|]; apply (Bad KVerbose); destruct (over dc dd KVerbose); [exact FV|reflexivity]].
    destruct p as [p|]; [discriminate|]. intro H; injection H as <-; right; right; split; [reflexivity|]. apply (Bad KPrecision).
    destruct (over dc dd KPrecision); [cbn [decode option_map] in *; rewrite P; reflexivity|reflexivity].
  - intro H. injection H as <-. right. left. destruct (over dc dd KPrecision) as [jp|] eqn:EP; [|discriminate P]. cbn [option_map] in P. unfold init_precision in P.
    destruct jp as [| | | | |l|]; try discriminate P. cbn [loaded] in P. destruct l as [|y [|z l]]; try discriminate P; injection P as <-;
      (split; [reflexivity|]; rewrite SO, EP; eexists; split; [reflexivity|cbn; lia]).
Qed.
Lemma missing_core fs dd dc k : files_ok fs -> contents (default_file fs) dd -> contents (custom_file fs) dc ->
  k = KContainer \/ k = KAlgorithm \/ k = KEstimator -> says dd dc k = None -> settings_init fs = Err KeyError.
Proof.
  intros [T1 T2] C1 C2 K N. rewrite (init_cases fs dd dc (good_of _ _ T1 C1) (good_of _ _ T2 C2)). rewrite says_over in N.
  destruct K as [-> |[-> | ->]]; rewrite N; [reflexivity|destruct (over dc dd KContainer); reflexivity|destruct (over dc dd KContainer), (over dc dd KAlgorithm); reflexivity].
Qed.
Lemma same_sayings fs fs' dd dc dd' dc' : files_ok fs -> files_ok fs' -> contents (default_file fs) dd -> contents (custom_file fs) dc ->
  contents (default_file fs') dd' -> contents (custom_file fs') dc' -> (forall k, says dd dc k = says dd' dc' k) -> settings_init fs = settings_init fs'.
Proof.
  intros [T1 T2] [T3 T4] C1 C2 C3 C4 E.
  rewrite (init_cases fs dd dc (good_of _ _ T1 C1) (good_of _ _ T2 C2)), (init_cases fs' dd' dc' (good_of _ _ T3 C3) (good_of _ _ T4 C4)).
  assert (G : forall k, over dc dd k = over dc' dd' k) by (intro k; rewrite <- !says_over; apply E). rewrite !G. reflexivity.
Qed.
Lemma not_json fs : (forall t, default_file fs = Some t -> unreadable t -> settings_init fs = Err JSONDecodeError) /\
  (forall dd t, contents (default_file fs) dd -> custom_file fs = Some t -> unreadable t -> settings_init fs = Err JSONDecodeError) /\
  (forall t j, default_file fs = Some t -> document j t -> (forall d, j <> JObj d) -> settings_init fs = Err AttributeError) /\
  (forall dd t j, contents (default_file fs) dd -> custom_file fs = Some t -> document j t -> (forall d, j <> JObj d) -> settings_init fs = Err AttributeError).
Proof.
  assert (C : forall dd s, contents (default_file fs) dd -> exists s', load_core (default_file fs) s = Ok s').
  { intros dd s H. apply contents_holds in H. destruct (default_file fs) as [t|]; cbn [load_core holds] in *; [rewrite H; eexists; reflexivity|eexists; reflexivity]. }
  unfold settings_init, core_init. split; [|split; [|split]].
  - intros t E L. apply unreadable_iff in L. rewrite E. cbn [load_core]. rewrite L. reflexivity.
  - intros dd t H E L. apply unreadable_iff in L. destruct (C dd [] H) as [s1 ->]. cbn [bind]. rewrite E. cbn [load_core]. rewrite L. reflexivity.
  - intros t j E L N. apply loads_document in L. rewrite E. cbn [load_core]. rewrite L. cbn [bind]. destruct j; try reflexivity. destruct (N d eq_refl).
  - intros dd t j H E L N. apply loads_document in L. destruct (C dd [] H) as [s1 ->]. cbn [bind]. rewrite E. cbn [load_core]. rewrite L. cbn [bind]. destruct j; try reflexivity. destruct (N d eq_refl).
Qed.

(** ** Repairs *)
Lemma repair fs dd dc k v w s : files_ok fs -> contents (default_file fs) dd -> contents (custom_file fs) dc -> accepted k v = Some w ->
  (forall k', k' <> k -> exists j x, says dd dc k' = Some j /\ reads k' j x) ->
  let '(_, fs', r) := set_property k v s fs in r = Ok tt /\ exists s', settings_init fs' = Ok s' /\ get k s' = w /\
    forall k' j, k' <> k -> says dd dc k' = Some j -> reads k' j (get k' s').
Proof.
  intros F C1 C2 A O. pose proof (setter_outcome k v s fs dc C2 (proj2 F)) as R. rewrite A in R.
  destruct (set_good k v s fs dc (good_of _ _ (proj2 F) C2)) as (d' & G & E).
  pose proof (value_accept k v) as VA. destruct (value_json k v) as [jv|e] eqn:V; [|congruence]. destruct VA as (_ & w' & A' & D). rewrite A in A'. injection A' as <-.
  pose proof (set_default k v s fs) as SD. destruct (set_property k v s fs) as [[s1 fs'] r] eqn:SP. cbn [fst snd] in *. split; [exact R|].
  assert (GD : good (default_file fs') dd) by (rewrite SD; exact (good_of _ _ (proj1 F) C1)).
  assert (Ch : forall k', exists x, decode k' (over d' dd k') = Some x).
  { intro k'. rewrite E, over_dset. destruct (key_eqb k k') eqn:K; [apply key_eqb_eq in K; subst k'; exists w; exact D|].
    assert (N : k' <> k) by (intros ->; rewrite (proj2 (key_eqb_eq k k) eq_refl) in K; discriminate).
    destruct (O k' N) as (j & x & Sj & Rx). rewrite says_over in Sj. rewrite Sj. exists x. apply decode_reads. exact Rx. }
  destruct (Ch KContainer) as (x1 & H1), (Ch KAlgorithm) as (x2 & H2), (Ch KEstimator) as (x3 & H3), (Ch KLevel) as (x4 & H4), (Ch KVerbose) as (x5 & H5), (Ch KPrecision) as (x6 & H6).
  set (s' := mkService x1 x2 x3 x4 x5 x6). assert (I : settings_init fs' = Ok s').
  { apply (init_iff fs' dd d' s' GD G). intros []; assumption. }
  exists s'. split; [exact I|]. pose proof (proj1 (init_iff fs' dd d' s' GD G) I) as J. split.
  - specialize (J k). rewrite E, over_dset, (proj2 (key_eqb_eq k k) eq_refl), D in J. congruence.
  - intros k' j N Sj. specialize (J k'). rewrite E, over_dset in J. destruct (key_eqb k k') eqn:K; [apply key_eqb_eq in K; congruence|].
    rewrite says_over in Sj. rewrite Sj in J. apply decode_reads. exact J.
Qed.
