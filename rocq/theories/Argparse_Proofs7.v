(** * The command line parser: whole commands *)
From Verif Require Import PyBase Json_Model Json_Proofs Settings_Model Settings_Spec Cli_Model Cli_Spec Cli_Proofs2 Loader_Model Log_Model Init_Model Init_Spec Install_Model Install_Spec
  Locator_Model Main_Model Main_Spec Main_Proofs4 Main_Proofs5 Argparse_Model Argparse_Spec Argparse_Proofs Argparse_Proofs2
  Argparse_Proofs3 Argparse_Proofs4 Argparse_Proofs5 Argparse_Proofs6.
Open Scope list_scope.

Section Commands.
  Variable int_of : text -> option Z.
  Variable unicode_digit : N -> bool.
  Notation parse_line := (parse_args int_of unicode_digit).
  Notation means := (means int_of unicode_digit).

  Lemma understood_line ws sub a : means ws sub a -> exists ns, parse_line ws = Parsed ns /\ let_through ns /\ of_subcommand sub ns /\
    (forall n, dget String.eqb n ns = attribute sub a n) /\
    (forall n, on ns n <-> setting a n = Some (BoolV true)) /\
    (forall n t, t <> [] -> (names ns n t <-> setting a n = Some (TextV t))) /\
    (forall n, off ns n <-> setting a n = None \/ setting a n = Some (TextV [])).
  Proof.
    intro M. destruct (means_accepted int_of unicode_digit ws sub a M) as (ns & P & A). exists ns. split; [exact P|]. split; [exact (through int_of unicode_digit ws sub a ns M A)|].
    split; [exact (namespace_of int_of unicode_digit ws sub a ns M A)|]. split; [exact A|].
    assert (U : forall n, setting a n = None -> attribute sub a n = None \/ attribute sub a n = Some (BoolV false) \/ attribute sub a n = Some NoneV).
    { intros n S. unfold attribute. rewrite S. destruct (unset sub n) as [v|] eqn:E; [|now left]. right. apply unset_value in E as [-> | ->]; auto. }
    split; [|split].
    - intro n. unfold on. rewrite A. destruct (setting a n) as [v|] eqn:S.
      + unfold attribute. rewrite S. reflexivity.
      + destruct (U n S) as [E|[E|E]]; rewrite E; split; discriminate.
    - intros n t Nt. unfold names. rewrite A. destruct (setting a n) as [v|] eqn:S.
      + unfold attribute. rewrite S. split; [intros [H _]; exact H|intro H; split; assumption].
      + destruct (U n S) as [E|[E|E]]; rewrite E; split; try discriminate; intros [H _]; discriminate.
    - intro n. unfold off. rewrite A. destruct (setting a n) as [v|] eqn:S.
      + unfold attribute. rewrite S. destruct (means_value int_of unicode_digit ws sub a n v M S) as (e & _ & _ & F). destruct (e_takes e); cbn in F.
        * subst v. split; [intros []|intros [H|H]; discriminate].
        * destruct F as (t & -> & _). destruct t; split; try tauto; try discriminate. intros [H|H]; discriminate.
        * destruct F as (x & y & ->). split; [intros []|intros [H|H]; discriminate].
        * destruct F.
      + destruct (U n S) as [E|[E|E]]; rewrite E; split; auto.
  Qed.

  Lemma rejected ws : (forall sub a, ~ means ws sub a) -> (forall w, In w ws -> ~ ends Top w /\ forall c, ~ ends (Sub c) w) -> parse_line ws = Exits 2.
  Proof.
    intros N E. destruct (parse_line ws) as [c|ns] eqn:P.
    - destruct (exit_codes int_of unicode_digit ws c P) as [-> | ->]; [|reflexivity]. exfalso.
      destruct (zero_words int_of unicode_digit ws P) as (w & I & [H|(c & _ & H)]); [exact (proj1 (E w I) H)|exact (proj2 (E w I) c H)].
    - destruct (accepted_means int_of unicode_digit ws ns P) as (sub & a & M & _). destruct (N sub a M).
  Qed.
  Lemma one_meaning ws sub a sub' a' : means ws sub a -> means ws sub' a' -> sub = sub' /\ forall n, setting a n = setting a' n.
  Proof.
    intros M M'. destruct (means_accepted int_of unicode_digit ws sub a M) as (ns & P & A). destruct (means_accepted int_of unicode_digit ws sub' a' M') as (ns' & P' & A').
    rewrite P in P'. injection P' as <-.
    assert (Nf : forall (t : option subcommand) b n v, means ws t b -> setting b n = Some v -> v <> BoolV false /\ v <> NoneV).
    { intros t b n v Mb Sb. destruct (means_value int_of unicode_digit ws t b n v Mb Sb) as (e & _ & _ & F). destruct (e_takes e); cbn in F.
      - subst v. split; discriminate.
      - destruct F as (x & -> & _). split; discriminate.
      - destruct F as (x & y & ->). split; discriminate.
      - destruct F. }
    assert (K : forall t b c, means ws t b -> (forall n, dget String.eqb n ns = attribute t b n) -> t = Some c -> forall n, In n (options c) -> dget String.eqb n ns <> None).
    { intros t b c Mb Ab -> n In_n. rewrite Ab. unfold attribute. destruct (setting b n); [discriminate|].
      destruct c; cbn in In_n; repeat (destruct In_n as [<-|In_n]; [discriminate|]); destruct In_n. }
    assert (O : of_subcommand sub ns) by exact (namespace_of int_of unicode_digit ws sub a ns M A).
    assert (O' : of_subcommand sub' ns) by exact (namespace_of int_of unicode_digit ws sub' a' ns M' A').
    assert (L : forall t t' b, means ws t b -> (forall n, dget String.eqb n ns = attribute t b n) -> of_subcommand t' ns -> forall c, t = Some c -> t' = Some c).
    { intros t t' b Mb Ab Ot c E. set (n := match c with View => "print" | Change => "container" | Plugin => "list" end%string).
      assert (I : In n (options c)) by (destruct c; cbn; now left). pose proof (K t b c Mb Ab E n I) as D. destruct (dget String.eqb n ns) as [v|] eqn:Dn; [|contradiction].
      destruct (Ot n v Dn) as [T|(c' & -> & I')]; [destruct c; discriminate T|]. f_equal.
      destruct c, c'; try reflexivity; cbn in I'; repeat (destruct I' as [I'|I']; [discriminate I'|]); destruct I'. }
    split.
    - destruct sub as [c|]; [symmetry; exact (L (Some c) sub' a M A O' c eq_refl)|]. destruct sub' as [c|]; [|reflexivity]. exact (L (Some c) None a' M' A' O c eq_refl).
    - intro n. pose proof (A n) as E. rewrite A' in E. unfold attribute in E. destruct (setting a n) as [v|] eqn:S1, (setting a' n) as [v'|] eqn:S2.
      + congruence.
      + apply unset_value in E. destruct (Nf sub a n v M S1) as [N1 N2], E; contradiction.
      + symmetry in E. apply unset_value in E. destruct (Nf sub' a' n v' M' S2) as [N1 N2], E; contradiction.
      + reflexivity.
  Qed.

  (** ** Change commands *)
  Variables up low : N -> text.
  Lemma change_value ws a n v : means ws (Some Change) a -> n <> "test"%string -> setting a n = Some v ->
    exists e, In e (entries (Sub Change)) /\ e_name e = n /\ fits (e_takes e) v.
  Proof.
    intros M Nt S. destruct (means_value int_of unicode_digit ws _ a n v M S) as (e & I & E & F).
    destruct (entry_cases n e (Some Change) I E (fits_not_end _ _ F)) as [[K _]|(c & K & _ & J)]; [contradiction|]. injection K as <-. exists e. repeat split; assumption.
  Qed.
  Definition plain_word (a : list (string * value)) (n : string) : option text := match setting a n with Some (TextV t) => Some t | _ => None end.
  Lemma word_setting ws sub a ns n : means ws sub a -> (forall n, dget String.eqb n ns = attribute sub a n) -> word ns n = plain_word a n.
  Proof.
    intros M A. unfold word, plain_word. rewrite A. unfold attribute. destruct (setting a n); [reflexivity|]. destruct (unset sub n) as [v|] eqn:U; [|reflexivity].
    apply unset_value in U as [-> | ->]; reflexivity.
  Qed.
  Definition asked_args (a : list (string * value)) : settings_args :=
    mkArgs false (plain_word a "container") (plain_word a "algorithm") (plain_word a "estimator") (plain_word a "log_level") (plain_word a "verbose")
      (match setting a "precision" with Some (IntsV [x; y]) => Some (VTuple [VJson (JInt x); VJson (JInt y)]) | _ => None end).
  Lemma request_asked ws a ns : means ws (Some Change) a -> (forall n, dget String.eqb n ns = attribute (Some Change) a n) -> change_request ns = asked_args a.
  Proof.
    intros M A. unfold change_request, asked_args. rewrite !(word_setting ws (Some Change) a ns _ M A), !A.
    assert (P : attribute (Some Change) a "print" = None).
    { unfold attribute. destruct (setting a "print") as [v|] eqn:S; [|reflexivity]. exfalso.
      destruct (change_value ws a "print" v M ltac:(discriminate) S) as (e & I & E & _). cbn in I. repeat (destruct I as [<-|I]; [discriminate E|]). exact I. }
    rewrite P. f_equal. unfold attribute. destruct (setting a "precision") as [v|]; [reflexivity|]. reflexivity.
  Qed.
  Lemma asked_words ws a k : means ws (Some Change) a -> k <> KPrecision ->
    (forall v, asked a k v <-> exists w, setting a (option_name k) = Some (TextV (txt w)) /\ meaning_of k w = Some v) /\
    (forall v, setting a (option_name k) = Some v -> exists w x, v = TextV (txt w) /\ meaning_of k w = Some x).
  Proof.
    intros M Nk. split.
    - intro v. unfold asked. destruct (setting a (option_name k)) as [x|] eqn:S; [|split; [intros []|intros (w & H & _); discriminate]].
      destruct x as [|b|t|l]; try (split; [intros []|intros (w & H & _); discriminate]).
      + split; [intros (w & -> & H); exists w; split; [reflexivity|exact H]|]. intros (w & H & K). injection H as ->. exists w. split; [reflexivity|exact K].
      + split; [destruct l as [|x [|y [|]]]; intro H; try destruct H; contradiction|intros (w & H & _); discriminate].
    - intros v S. destruct (change_value ws a (option_name k) v M ltac:(destruct k; discriminate) S) as (e & I & E & F).
      destruct k; try contradiction; cbn in I; repeat (destruct I as [<-|I]; [first [discriminate E|cbn in F; destruct F as (t & -> & (c & J & ->)); exists c; cbn in J;
        repeat (destruct J as [<-|J]; [eexists; split; reflexivity|]); destruct J]|]); destruct I.
  Qed.
  Lemma txt_inj a : forall b, txt a = txt b -> a = b.
  Proof.
    induction a as [|c a IH]; destruct b as [|d b]; intro H; try reflexivity; try discriminate. unfold txt in H. cbn in H. injection H as H1 H2.
    f_equal; [|apply IH; exact H2]. rewrite <- (Ascii.ascii_N_embedding c), <- (Ascii.ascii_N_embedding d). congruence.
  Qed.
  Lemma wants_asked ws a k v : means ws (Some Change) a -> asked a k v -> wants up low (asked_args a) k v.
  Proof.
    intros M H. destruct (match k with KPrecision => true | _ => false end) eqn:Ek.
    - assert (k = KPrecision) as -> by (destruct k; try discriminate; reflexivity). unfold asked in H. cbn [option_name] in H. unfold wants, asks, asked_args. cbn [a_precision].
      destruct (setting a "precision") as [[|b|t|l]|]; try contradiction; [destruct H as (w & _ & K); discriminate|]. destruct l as [|x [|y [|]]]; try contradiction. destruct H as [_ ->].
      split; [eexists; split; reflexivity|reflexivity].
    - assert (Nk : k <> KPrecision) by (intros ->; discriminate). apply (proj1 (asked_words ws a k M Nk)) in H as (w & S & K).
      destruct k; try contradiction; cbn [option_name] in S; unfold wants, asks, asked_args, given, plain_word; cbn [a_container a_algorithm a_estimator a_level a_verbose]; rewrite S;
      cbn in K; repeat match goal with
        | H : context [match ?x with _ => _ end] |- _ => match type of H with _ = Some v => destruct x; try discriminate H end
        end.
      all: injection K as <-; split; [eexists; split; [reflexivity|discriminate]|].
      all: first [eexists _, _; split; [reflexivity|]; split; [vm_compute; reflexivity|reflexivity]
                 |eexists _, _; split; [reflexivity|]; split; [|reflexivity]; vm_compute; split; [reflexivity|reflexivity]
                 |eexists _, _; split; [reflexivity|]; split; [|reflexivity]; vm_compute; split; discriminate].
  Qed.
  Lemma asks_asked ws a k : means ws (Some Change) a -> asks (asked_args a) k -> exists v, asked a k v.
  Proof.
    intros M H. destruct (match k with KPrecision => true | _ => false end) eqn:Ek.
    - assert (k = KPrecision) as -> by (destruct k; try discriminate; reflexivity). unfold asks, asked_args in H. cbn [a_precision] in H. destruct H as (p & H & _).
      unfold asked. cbn [option_name]. destruct (setting a "precision") as [[|b|t|l]|]; try discriminate. destruct l as [|x [|y [|]]]; try discriminate. eexists. split; reflexivity.
    - assert (Nk : k <> KPrecision) by (intros ->; discriminate). assert (S : exists t, setting a (option_name k) = Some (TextV t)).
      { destruct k; try contradiction; unfold asks, asked_args, given, plain_word in H; cbn [a_container a_algorithm a_estimator a_level a_verbose option_name] in *; destruct H as (t & H & _);
          (destruct (setting a _) as [[|b|t'|l]|]; try discriminate; eexists; reflexivity). }
      destruct S as [t S]. destruct (proj2 (asked_words ws a k M Nk) _ S) as (w & x & E & K). injection E as ->. exists x. apply (proj1 (asked_words ws a k M Nk)). exists w. split; assumption.
  Qed.
  Lemma asked_wants ws a k v : means ws (Some Change) a -> wants up low (asked_args a) k v -> asked a k v.
  Proof.
    intros M H. pose proof (proj1 H) as Q. destruct (asks_asked ws a k M Q) as [v' A]. pose proof (wants_asked ws a k v' M A) as W. replace v with v'; [exact A|].
    destruct H as [_ H], W as [_ W]. destruct k.
    - destruct H as (t & c & E & U & ->), W as (t' & c' & E' & U' & ->). rewrite E in E'. injection E' as <-. rewrite U in U'. destruct c, c'; try reflexivity; vm_compute in U'; discriminate.
    - destruct H as (t & c & E & U & ->), W as (t' & c' & E' & U' & ->). rewrite E in E'. injection E' as <-. rewrite U in U'. destruct c, c'; try reflexivity; vm_compute in U'; discriminate.
    - destruct H as (t & c & E & U & ->), W as (t' & c' & E' & U' & ->). rewrite E in E'. injection E' as <-. rewrite U in U'. destruct c, c'; try reflexivity; vm_compute in U'; discriminate.
    - destruct H as (t & c & E & U & ->), W as (t' & c' & E' & U' & ->). rewrite E in E'. injection E' as <-. rewrite U in U'. destruct c, c'; try reflexivity; vm_compute in U'; discriminate.
    - destruct H as (t & c & E & U & ->), W as (t' & c' & E' & U' & ->). rewrite E in E'. injection E' as <-. f_equal. f_equal. destruct c, c'; try reflexivity; [|symmetry]; [apply U'; apply U; reflexivity|apply U; apply U'; reflexivity].
    - congruence.
  Qed.
  Lemma precision_ok a : precision_pair (asked_args a).
  Proof.
    intros p H _. unfold asked_args in H. cbn [a_precision] in H. destruct (setting a "precision") as [[|b|t|l]|]; try discriminate. destruct l as [|x [|y [|]]]; try discriminate. injection H as <-.
    exists (VJson (JInt x)), (VJson (JInt y)). repeat split.
  Qed.
  Lemma change_line ws a fs s : means ws (Some Change) a -> files_ok fs -> settings_init fs = Ok s ->
    exists fs' ms s', run_change up low (asked_args a) fs = (fs', ms, Ok tt) /\ settings_init fs' = Ok s' /\
      (forall k v, asked a k v -> already v (get k s')) /\ (forall k, (forall v, ~ asked a k v) -> get k s' = get k s).
  Proof.
    intros M F I. destruct (change_spec up low (asked_args a) (precision_ok a) fs s F I) as (fs' & ms & s' & R & I' & C & _).
    { intros k Q. destruct (asks_asked ws a k M Q) as [v A]. exists v. exact (wants_asked ws a k v M A). }
    exists fs', ms, s'. split; [exact R|]. split; [exact I'|]. split.
    - intros k v A. destruct (proj1 (C k) v (wants_asked ws a k v M A)) as [[Al ->]|[_ ->]]; [exact Al|now left].
    - intros k N. apply (proj2 (C k)). intro Q. destruct (asks_asked ws a k M Q) as [v A]. exact (N v A).
  Qed.

  Variable str_of : pyval -> text.
  Variable number_text : Z -> text.
  Variable pytest : text -> machine -> machine.
  Variable listdir : tree -> res (list text).
  Variable find_module : text -> res (@module stype obj files).
  Variable user_instance : nat -> stype -> bool.
  Variables algorithm_factory container_factory estimator_factory : factory stype obj files.
  Variable DATE : date.
  Variable depth : nat.
  Variable DIR : text.
  Notation main := (mainPyZEAL up low str_of number_text parse_line pytest listdir find_module user_instance algorithm_factory container_factory
                      estimator_factory DATE (S (S depth)) DIR).
  Lemma change_command p ws a cwd lg m s : means ws (Some Change) a -> setting a "test" = None -> (2 <= List.length ws)%nat ->
    files_ok (m_files m) -> settings_init (m_files m) = Ok s -> usable_logs lg ->
    exists m' out s', main (p :: ws) cwd lg m = (m', out, Ok tt) /\ settings_init (m_files m') = Ok s' /\ m_tree m' = m_tree m /\
      (forall k v, asked a k v -> already v (get k s')) /\ (forall k, (forall v, ~ asked a k v) -> get k s' = get k s).
  Proof.
    intros M T L F I U. destruct (understood_line ws (Some Change) a M) as (ns & P & Th & O & A & _ & _ & Off).
    destruct (run_change_request up low str_of number_text parse_line pytest listdir find_module user_instance algorithm_factory container_factory estimator_factory DATE depth DIR
      (p :: ws) cwd lg m s ns I U P Th O) as (fs' & ms & r & R & E); [apply Off; now left|cbn; lia|].
    rewrite (request_asked ws a ns M A) in R. destruct (change_line ws a (m_files m) s M F I) as (fs2 & ms2 & s' & R2 & I2 & K1 & K2). rewrite R2 in R. injection R as <- <- <-.
    exists (mkMachine fs2 (m_tree m)), (map Reported ms2), s'. split; [exact E|]. split; [exact I2|]. split; [reflexivity|]. split; assumption.
  Qed.
  Lemma view_command p ws a cwd lg m s : means ws (Some View) a -> setting a "print" = Some (BoolV true) -> setting a "test" = None ->
    settings_init (m_files m) = Ok s -> usable_logs lg ->
    exists c al e l, get KContainer s = VContainer c /\ get KAlgorithm s = VAlgorithm al /\ get KEstimator s = VEstimator e /\ get KLevel s = VLevel l /\
    main (p :: ws) cwd lg m = (m, [Printed (
        txt "Currently active settings configuration:" ++ [10%N]
        ++ txt "-> default container:   " ++ txt (container_value c) ++ [10%N]
        ++ txt "-> default algorithm:   " ++ txt (algorithm_value al) ++ [10%N]
        ++ txt "-> default estimator:   " ++ txt (estimator_value e) ++ [10%N]
        ++ txt "-> default log level:   " ++ txt (level_name l) ++ [10%N]
        ++ txt "-> default verbosity:   " ++ str_of (get KVerbose s) ++ [10%N]
        ++ txt "-> default precision:   " ++ str_of (get KPrecision s))], Ok tt).
  Proof.
    intros M Pr T I U. destruct (understood_line ws (Some View) a M) as (ns & P & Th & O & A & On & _ & Off).
    apply (run_view up low str_of number_text parse_line pytest listdir find_module user_instance algorithm_factory container_factory estimator_factory DATE depth DIR
      (p :: ws) cwd lg m s ns I U P O); [apply On; exact Pr|apply Off; now left|].
    inversion M as [|ws' a' c rest b P1 P2 E1 E2 E3]; subst. inversion P2 as [|w1 a1 w2 a2 Q1 Q2 E4 E5]; subst.
    - exfalso. rewrite app_nil_r in Pr. assert (M0 : means ws' None a') by (constructor; exact P1).
      destruct (means_value int_of unicode_digit ws' None a' "print" _ M0 Pr) as (e & I1 & E1 & _). 
      destruct I1 as [I1|(c0 & I0 & _)]; [|discriminate I0]. cbn in I1.
      repeat (destruct I1 as [<-|I1]; [discriminate E1|]). exact I1.
    - assert (w1 <> []) by (inversion Q1; discriminate). destruct w1; [contradiction|]. cbn [List.length]. rewrite app_length. cbn [List.length app]. rewrite app_length. lia.
  Qed.
  Lemma install_command p ws a cwd lg m s f d n dir c : means ws (Some Plugin) a -> setting a "install" = Some (TextV f) -> setting a "uninstall" = None ->
    setting a "list" = None -> setting a "modules" = None -> setting a "test" = None ->
    settings_init (m_files m) = Ok s -> usable_logs lg -> tree_ok (m_tree m) -> plugin_dir (m_tree m) DIR d -> Forall plain cwd -> f <> [] -> ~ In 0%N f ->
    meant_place cwd f = n :: dir -> m_tree m (n :: dir) = Some (NFile c) -> dir <> d -> m_tree m (n :: d) <> Some NDir ->
    exists fs', differs_at (n :: d) (Some (NFile c)) (m_tree m) fs' /\
      main (p :: ws) cwd lg m = (mkMachine (m_files m) fs', [installing f; Printed (txt "[success] plugin was installed!")], Ok tt).
  Proof.
    intros M In' Un Li Mo T I U T1 T2 T3 Nf T4 T5 T6 T7 T8. destruct (understood_line ws (Some Plugin) a M) as (ns & P & Th & O & A & On & Na & Off).
    apply (run_install up low str_of number_text parse_line pytest listdir find_module user_instance algorithm_factory container_factory estimator_factory DATE depth DIR
      (p :: ws) cwd lg m s ns f d n dir c I U P O); try assumption; try (apply Off; now left); [|apply Na; assumption].
    inversion M as [|ws' a' c' rest b P1 P2 E1 E2 E3]; subst. inversion P2 as [|w1 a1 w2 a2 Q1 Q2 E4 E5]; subst.
    - exfalso. rewrite app_nil_r in In'. assert (M0 : means ws' None a') by (constructor; exact P1).
      destruct (means_value int_of unicode_digit ws' None a' "install" _ M0 In') as (e & I1 & E1 & _). 
      destruct I1 as [I1|(c0 & I0 & _)]; [|discriminate I0]. cbn in I1.
      repeat (destruct I1 as [<-|I1]; [discriminate E1|]). exact I1.
    - assert (w1 <> []) by (inversion Q1; discriminate). destruct w1; [contradiction|]. cbn [List.length]. rewrite app_length. cbn [List.length app]. rewrite app_length. lia.
  Qed.
End Commands.
