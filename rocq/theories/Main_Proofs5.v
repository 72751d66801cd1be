(** * Proofs about the command line program: histories of runs *)
From Verif Require Import PyBase Json_Model Json_Proofs Settings_Model Settings_Spec Settings_Proofs Locator_Model Locator_Spec Cli_Model Cli_Spec
  Factory_Spec Factory_Proofs Cli_Proofs2
  Loader_Model Loader_Spec Loader_Proofs Log_Model Log_Spec Log_Proofs Init_Model Init_Spec Init_Proofs Init_Proofs2 Install_Model Install_Spec Install_Proofs
  Main_Model Main_Spec Main_Proofs Main_Proofs2 Main_Proofs3 Main_Proofs4.
Open Scope list_scope.

Lemma if_text_word ns n f st : if_text (as_text (getattr ns n (TextV []))) f st = if_text (word ns n) f st.
Proof. unfold word, getattr. destruct (dget String.eqb n ns) as [[| | |]|]; reflexivity. Qed.
Lemma precision_request ns : let_through ns -> a_precision (settings_part ns) = a_precision (change_request ns).
Proof.
  intros (_ & _ & _ & _ & _ & H). unfold settings_part, change_request, getattr. cbn [a_precision].
  destruct (dget String.eqb "precision" ns) as [[| | |l]|]; try reflexivity; try contradiction H.
  destruct l as [|x [|y [|z l]]]; try discriminate H. reflexivity.
Qed.
Lemma andthen_ext r r' f f' : r = r' -> (forall st, f st = f' st) -> andthen r f = andthen r' f'.
Proof. intros -> H. unfold andthen. destruct (snd r'); [apply H|reflexivity]. Qed.
Lemma request_run up low ns st : let_through ns ->
  handleChangeSubcommand up low (settings_part ns) st = handleChangeSubcommand up low (change_request ns) st.
Proof.
  intro A. unfold handleChangeSubcommand. rewrite (precision_request ns A).
  unfold settings_part, change_request. cbn [a_container a_algorithm a_estimator a_level a_verbose].
  repeat (apply andthen_ext; [apply if_text_word|intro]). reflexivity.
Qed.
Lemma request_change up low ns fs : let_through ns -> run_change up low (settings_part ns) fs = run_change up low (change_request ns) fs.
Proof. intro A. unfold run_change. destruct (settings_init fs); [|reflexivity]. rewrite (request_run up low ns _ A). reflexivity. Qed.
Lemma word_choice choices ns n : choice choices (dget String.eqb n ns) -> one_of choices (word ns n).
Proof.
  unfold word, choice, one_of. destruct (dget String.eqb n ns) as [[| |t|]|]; intro H; try exact I. right. exact H.
Qed.
Lemma let_through_parser ns : let_through ns -> from_parser (change_request ns).
Proof.
  intros (H1 & H2 & H3 & H4 & H5 & H6). unfold change_request. repeat split; cbn [a_container a_algorithm a_estimator a_level a_verbose a_precision];
    try (apply word_choice; assumption).
  destruct (dget String.eqb "precision" ns) as [[| | |l]|]; try exact I. destruct l as [|x [|y [|z l]]]; try exact I. eauto.
Qed.
Lemma selected argparse c i ns sub : argparse (tl (i_argv i)) = Parsed ns -> of_subcommand sub ns ->
  selects argparse c i = true -> sub = Some c.
Proof.
  intros P O S. unfold selects in S. rewrite P in S. apply existsb_exists in S as (n & Hn & E).
  destruct (dget String.eqb n ns) as [v|] eqn:D; [|discriminate].
  destruct sub as [c'|]; [|exfalso; destruct (O n v D) as [->|(c' & C & _)]; [|discriminate]; destruct c; cbn in Hn; intuition discriminate].
  destruct (O n v D) as [->|(c0 & C & I)]; [exfalso; destruct c; cbn in Hn; intuition discriminate|]. injection C as <-.
  destruct c, c'; try reflexivity; exfalso; cbn in Hn, I;
    repeat (destruct Hn as [Hn|Hn]; [subst n; repeat (destruct I as [I|I]; [discriminate I|]); destruct I|]); destruct Hn.
Qed.
Lemma unselected argparse c i ns : argparse (tl (i_argv i)) = Parsed ns -> selects argparse c i = false -> silent ns c.
Proof.
  intros P S n Hn. unfold selects in S. rewrite P in S. unfold off. destruct (dget String.eqb n ns) as [v|] eqn:D; [|exact I]. exfalso.
  assert (C : existsb (fun n => match dget String.eqb n ns with Some _ => true | None => false end) (options c) = true); [|congruence].
  apply existsb_exists. exists n. rewrite D. auto.
Qed.

(** Commands that only work on the plugin directory. *)
Definition on_tree (f : machine -> outcome) : Prop := forall fs fs' t,
  exists t' o r, f (mkMachine fs t) = (mkMachine fs t', o, r) /\ f (mkMachine fs' t) = (mkMachine fs' t', o, r).
Lemma on_tree_seq f g : on_tree f -> on_tree g -> on_tree (fun m => seq_ (f m) g).
Proof.
  intros F G fs fs' t. destruct (F fs fs' t) as (t1 & o1 & r1 & E1 & E1'). rewrite E1, E1'. destruct r1 as [[]|e]; cbn [seq_]; [|exists t1, o1, (Err e); auto].
  destruct (G fs fs' t1) as (t2 & o2 & r2 & E2 & E2'). rewrite E2, E2'. exists t2, (o1 ++ o2), r2. auto.
Qed.
Lemma on_tree_done : on_tree done_. Proof. intros fs fs' t. exists t, [], (Ok tt). auto. Qed.
Lemma on_tree_say s : on_tree (say s). Proof. intros fs fs' t. exists t, [Printed s], (Ok tt). auto. Qed.
Lemma on_tree_when b f : on_tree f -> on_tree (when_ b f). Proof. intro F. destruct b; [exact F|apply on_tree_done]. Qed.
Lemma on_tree_given o f : (forall x, on_tree (f x)) -> on_tree (given_ o f).
Proof. intro F. destruct o as [[|c x]|]; [apply on_tree_done|apply F|apply on_tree_done]. Qed.

Section Run.
  Variables up low : N -> text.
  Variable str_of : pyval -> text.
  Variable number_text : Z -> text.
  Variable argparse : list text -> parse.
  Variable pytest : text -> machine -> machine.
  Variable listdir : tree -> res (list text).
  Variable find_module : text -> res (@module stype obj files).
  Variable user_instance : nat -> stype -> bool.
  Variables algorithm_factory container_factory estimator_factory : factory stype obj files.
  Variable DATE : date.
  Variable depth : nat.
  Variable DIR : text.
  Notation main := (mainPyZEAL up low str_of number_text argparse pytest listdir find_module user_instance algorithm_factory container_factory
                      estimator_factory DATE (S (S depth)) DIR).
  Notation by_sub := (run_by_subcommand up low str_of number_text argparse pytest listdir find_module user_instance algorithm_factory container_factory
                      estimator_factory DATE depth DIR).
  Notation plug := (plugins low number_text listdir find_module DIR).
  Definition run (i : invocation) (m : machine) : outcome := main (i_argv i) (i_cwd i) (i_logs i) m.

  Lemma on_tree_plugins cwd args : on_tree (plug cwd args).
  Proof.
    unfold plugins. apply on_tree_seq; [apply on_tree_when|apply on_tree_seq; [apply on_tree_when|apply on_tree_seq; apply on_tree_given; intro x]].
    - intros fs fs' t. unfold list_plugins. cbn [m_tree]. do 3 eexists. split; reflexivity.
    - intros fs fs' t. unfold listModules. cbn [say seq_ m_tree]. destruct (listdir t); do 3 eexists; split; reflexivity.
    - intros fs fs' t. unfold install. cbn [say seq_ m_tree]. destruct (installPlugin _ _ _ t) as [t' [[|]|e]]; unfold report; cbn [fst snd m_files say seq_]; do 3 eexists; split; reflexivity.
    - intros fs fs' t. unfold uninstall. cbn [say seq_ m_tree]. destruct (uninstallPlugin _ _ _ t) as [t' [[|]|e]]; unfold report; cbn [fst snd m_files say seq_]; do 3 eexists; split; reflexivity.
  Qed.

  Lemma around_machine argv ns f m : off ns "test" -> fst (fst (around pytest argv ns f m)) = fst (fst (f m)).
  Proof.
    intro T. unfold around, testing_part, handleTestingOption. rewrite (off_false ns "test" T). cbn [when_].
    destruct (Nat.ltb (List.length argv) 2); cbn [when_ say done_ seq_]; destruct (f m) as [[m' o'] [[]|e]]; try reflexivity;
      cbn [seq_ done_ negb]; destruct (Nat.eqb (List.length argv) 2); reflexivity.
  Qed.

  Definition alive (m : machine) : Prop := exists s dd dc, good (default_file (m_files m)) dd /\ good (custom_file (m_files m)) dc /\ settings_init (m_files m) = Ok s.
  Definition request_of (i : invocation) (fs : files) : files :=
    match argparse (tl (i_argv i)) with Parsed ns => fst (fst (run_change up low (change_request ns) fs)) | Exits _ => fs end.

  Hypothesis parser : argparse_ok argparse.
  Definition plain_run (i : invocation) : Prop := usable_logs (i_logs i) /\ no_tests argparse i.

  (** A run in terms of its parts. *)
  Lemma step_parts i m : plain_run i -> alive m ->
    m_files (fst (fst (run i m))) = request_of i (m_files m) /\
    m_tree (fst (fst (run i m))) = match argparse (tl (i_argv i)) with
                                   | Parsed ns => m_tree (fst (fst (plug (i_cwd i) (plugin_part ns) m))) | Exits _ => m_tree m end.
  Proof.
    intros [U T] (s & dd & dc & GD & GC & E). unfold run, request_of. destruct (argparse (tl (i_argv i))) as [c|ns] eqn:P.
    - rewrite (exit_run up low str_of number_text argparse pytest listdir find_module user_instance algorithm_factory container_factory
                      estimator_factory DATE depth DIR (i_argv i) (i_cwd i) (i_logs i) m s c E U P). auto.
    - destruct (parser _ _ P) as (A & sub & O). rewrite (by_sub (i_argv i) (i_cwd i) (i_logs i) m s ns sub E U P O).
      rewrite (around_machine (i_argv i) ns _ m (T ns P)).
      assert (Q : forall c, sub <> Some c -> silent ns c) by (intros c N; apply absent_silent, (other_absent sub); assumption).
      assert (CH : fst (fst (handleChange up low s (settings_part ns) m)) = mkMachine (fst (fst (run_change up low (change_request ns) (m_files m)))) (m_tree m)).
      { unfold handleChange, run_change. rewrite E, (request_run up low ns _ A).
        destruct (handleChangeSubcommand up low (change_request ns) (mkCli s (m_files m) [])) as [st r]. reflexivity. }
      assert (CI : sub <> Some Change -> fst (fst (run_change up low (change_request ns) (m_files m))) = m_files m).
      { intro N. rewrite (change_idle up low s ns m (Q Change N)) in CH. cbn [done_ fst] in CH. rewrite CH at 2. reflexivity. }
      assert (PI : sub <> Some Plugin -> plug (i_cwd i) (plugin_part ns) m = done_ m).
      { intro N. pose proof (Q Plugin N) as H. unfold plugins, plugin_part. cbn [p_list p_modules p_install p_uninstall].
        rewrite (off_false ns "list") by (apply H; cbn [options In]; auto 10). rewrite (off_false ns "modules") by (apply H; cbn [options In]; auto 10).
        cbn [when_]. rewrite !seq_done.
        rewrite given_off by (apply off_text, H; cbn [options In]; auto 10). rewrite seq_done. apply given_off. apply off_text, H. cbn [options In]. auto 10. }
      destruct sub as [[| |]|]; cbn [subcommand_effect].
      + rewrite CI, PI by discriminate. unfold handleViewSubcommand. destruct (a_print _); cbn [when_]; [|auto]. destruct (settings_str _ _); auto.
      + rewrite CH, PI by discriminate. auto.
      + rewrite CI by discriminate. destruct m as [fs t]. destruct (on_tree_plugins (i_cwd i) (plugin_part ns) fs fs t) as (t' & o & r & X & _). rewrite X. auto.
      + rewrite CI, PI by discriminate. auto.
  Qed.
  Lemma request_alive i fs s dd dc : good (default_file fs) dd -> good (custom_file fs) dc -> settings_init fs = Ok s ->
    exists s' dc', good (default_file (request_of i fs)) dd /\ good (custom_file (request_of i fs)) dc' /\ settings_init (request_of i fs) = Ok s'.
  Proof.
    intros GD GC E. unfold request_of. destruct (argparse (tl (i_argv i))) as [c|ns] eqn:P; [eauto|]. destruct (parser _ _ P) as (A & _).
    destruct (parsed_good up low (change_request ns) fs dd dc s (let_through_parser ns A) GD GC E) as (fs' & ms & s' & dc' & -> & GD' & GC' & I' & _).
    exists s', dc'. auto.
  Qed.
  Lemma step_alive i m : plain_run i -> alive m -> alive (fst (fst (run i m))).
  Proof.
    intros R A. destruct (step_parts i m R A) as [F _]. unfold alive. rewrite F. destruct A as (s & dd & dc & GD & GC & E).
    destruct (request_alive i (m_files m) s dd dc GD GC E) as (s' & dc' & H1 & H2 & H3). exists s', dd, dc'. auto.
  Qed.
  Lemma step_files i m : plain_run i -> alive m -> selects argparse Change i = false -> m_files (fst (fst (run i m))) = m_files m.
  Proof.
    intros R A S. destruct (step_parts i m R A) as [F _]. rewrite F. unfold request_of. destruct (argparse (tl (i_argv i))) as [c|ns] eqn:P; [reflexivity|].
    destruct A as (s & dd & dc & GD & GC & E). destruct (parser _ _ P) as (A & _).
    pose proof (change_idle up low s ns m (unselected argparse Change i ns P S)) as CI. unfold handleChange in CI. unfold run_change. rewrite E.
    rewrite (request_run up low ns _ A) in CI. destruct (handleChangeSubcommand up low (change_request ns) (mkCli s (m_files m) [])) as [st r].
    cbn [fst]. assert (X : fst (fst (mkMachine (c_files st) (m_tree m), map Reported (c_out st), r)) = m) by (rewrite CI; reflexivity).
    cbn [fst] in X. rewrite <- X. reflexivity.
  Qed.
  Lemma step_tree i m : plain_run i -> alive m -> selects argparse Plugin i = false -> m_tree (fst (fst (run i m))) = m_tree m.
  Proof.
    intros R A S. destruct (step_parts i m R A) as [_ F]. rewrite F. destruct (argparse (tl (i_argv i))) as [c|ns] eqn:P; [reflexivity|].
    pose proof (unselected argparse Plugin i ns P S) as H. unfold plugins, plugin_part. cbn [p_list p_modules p_install p_uninstall].
    rewrite (off_false ns "list") by (apply H; cbn [options In]; auto 10). rewrite (off_false ns "modules") by (apply H; cbn [options In]; auto 10).
    cbn [when_]. rewrite !seq_done.
    rewrite given_off by (apply off_text, H; cbn [options In]; auto 10). rewrite seq_done. rewrite given_off; [reflexivity|]. apply off_text, H. cbn [options In]. auto 10.
  Qed.

  Theorem histories h : forall m m', alive m -> alive m' -> Forall plain_run h ->
    alive (machine_after run h m) /\
    m_files (machine_after run h m) = runs up low (change_requests argparse h) (m_files m) /\
    (m_files m = m_files m' -> m_files (machine_after run h m) = m_files (machine_after run (filter (selects argparse Change) h) m')) /\
    (m_tree m = m_tree m' -> m_tree (machine_after run h m) = m_tree (machine_after run (filter (selects argparse Plugin) h) m')).
  Proof.
    induction h as [|i h IH]; intros m m' A A' H; [unfold machine_after; cbn [fold_left filter]; auto|].
    apply Forall_cons_iff in H as [R H]. pose proof (step_alive i m R A) as A1. pose proof (step_alive i m' R A') as A1'.
    destruct (step_parts i m R A) as [F1 T1]. destruct (step_parts i m' R A') as [F1' T1'].
    unfold machine_after in *. cbn [fold_left filter].
    destruct (IH (fst (fst (run i m))) (fst (fst (run i m'))) A1 A1' H) as (B1 & B2 & B3 & B4).
    destruct (IH (fst (fst (run i m))) m' A1 A' H) as (_ & _ & B5 & B6). split; [exact B1|]. split; [|split].
    - rewrite B2, F1. unfold change_requests, request_of. cbn [flat_map]. destruct (argparse (tl (i_argv i))); reflexivity.
    - intro E. destruct (selects argparse Change i) eqn:S; cbn [fold_left].
      + apply B3. rewrite F1, F1', E. reflexivity.
      + apply B5. rewrite (step_files i m R A S). exact E.
    - intro E. destruct (selects argparse Plugin i) eqn:S; cbn [fold_left].
      + apply B4. rewrite T1, T1'. destruct (argparse (tl (i_argv i))) as [c|ns]; [exact E|]. destruct m as [fs t], m' as [fs' t']. cbn [m_tree] in E. subst t'.
        destruct (on_tree_plugins (i_cwd i) (plugin_part ns) fs fs' t) as (t2 & o & r & X & X'). rewrite X, X'. reflexivity.
      + apply B6. rewrite (step_tree i m R A S). exact E.
  Qed.
End Run.
Section Change.
  Variables up low : N -> text.
  Variable str_of : pyval -> text.
  Variable number_text : Z -> text.
  Variable argparse : list text -> parse.
  Variable pytest : text -> machine -> machine.
  Variable listdir : tree -> res (list text).
  Variable find_module : text -> res (@module stype obj files).
  Variable user_instance : nat -> stype -> bool.
  Variables algorithm_factory container_factory estimator_factory : factory stype obj files.
  Variable DATE : date.
  Variable depth : nat.
  Variable DIR : text.
  Notation main := (mainPyZEAL up low str_of number_text argparse pytest listdir find_module user_instance algorithm_factory container_factory
                      estimator_factory DATE (S (S depth)) DIR).
  Theorem run_change_request argv cwd lg m s ns : settings_init (m_files m) = Ok s -> usable_logs lg -> argparse (tl argv) = Parsed ns -> let_through ns ->
    of_subcommand (Some Change) ns -> off ns "test" -> (3 <= List.length argv)%nat ->
    exists fs' ms r, run_change up low (change_request ns) (m_files m) = (fs', ms, r) /\ main argv cwd lg m = (mkMachine fs' (m_tree m), map Reported ms, r).
  Proof.
    intros E U P A O T L. rewrite <- (request_change up low ns (m_files m) A).
    exact (run_change_command up low str_of number_text argparse pytest listdir find_module user_instance algorithm_factory container_factory
                      estimator_factory DATE depth DIR argv cwd lg m s ns E U P O T L).
  Qed.
  Lemma working_alive m s : working m s -> alive m.
  Proof. intros [F I]. destruct (good_of_init _ _ F I) as (dd & dc & G & G'). exists s, dd, dc. auto. Qed.
  Theorem history_spec h m s : argparse_ok argparse -> working m s -> Forall (fun i => usable_logs (i_logs i) /\ no_tests argparse i) h ->
    let run := fun i m => main (i_argv i) (i_cwd i) (i_logs i) m in
    (exists s', settings_init (m_files (machine_after run h m)) = Ok s') /\
    m_files (machine_after run h m) = runs up low (change_requests argparse h) (m_files m) /\
    m_files (machine_after run h m) = m_files (machine_after run (filter (selects argparse Change) h) m) /\
    m_tree (machine_after run h m) = m_tree (machine_after run (filter (selects argparse Plugin) h) m).
  Proof.
    intros P W H. pose proof (working_alive m s W) as A.
    destruct (histories up low str_of number_text argparse pytest listdir find_module user_instance algorithm_factory container_factory
                      estimator_factory DATE depth DIR P h m m A A H) as ((s' & _ & _ & _ & _ & E) & F & G & T).
    split; [exists s'; exact E|]. split; [exact F|]. split; [exact (G eq_refl)|exact (T eq_refl)].
  Qed.
End Change.

(** ** A concrete machine and command lines *)
Definition ns_test : namespace := [("test"%string, BoolV false)].
Definition ns_plugin (file : text) : namespace := [("test", BoolV false); ("list", BoolV false); ("modules", BoolV false); ("install", TextV file); ("uninstall", NoneV)]%string.
Definition ns_change : namespace := [("test", BoolV false); ("container", NoneV); ("algorithm", TextV (txt "newton_grid")); ("estimator", NoneV); ("log_level", NoneV);
  ("verbose", NoneV); ("precision", IntsV [6; 7]%Z)]%string.
Definition argparse0 (args : list text) : parse :=
  match args with
  | [] => Parsed ns_test
  | [a] => if text_eqb a (txt "--help") then Exits 0 else Exits 2
  | [a; b; c] => if (text_eqb a (txt "plugin") && text_eqb b (txt "--install"))%bool then Parsed (ns_plugin c) else Exits 2
  | a :: _ => if text_eqb a (txt "change") then Parsed ns_change else Exits 2
  end.
Lemma argparse0_ok : argparse_ok argparse0.
Proof.
  assert (T : let_through ns_test /\ exists sub, of_subcommand sub ns_test).
  { split; [repeat split|]. exists None. intros n v H. cbn in H. destruct (String.eqb n "test") eqn:E; [left; apply String.eqb_eq; exact E|discriminate]. }
  assert (P : forall f, let_through (ns_plugin f) /\ exists sub, of_subcommand sub (ns_plugin f)).
  { intro f. split; [repeat split|]. exists (Some Plugin). intros n v H. cbn [ns_plugin dget] in H.
    repeat (match type of H with (if String.eqb n ?k then _ else _) = _ => destruct (String.eqb n k) eqn:? end;
      [match goal with E : String.eqb n _ = true |- _ => apply String.eqb_eq in E; subst n end; first [left; reflexivity|right; exists Plugin; split; [reflexivity|cbn; auto 10]]|]).
    discriminate. }
  assert (C : let_through ns_change /\ exists sub, of_subcommand sub ns_change).
  { split; [repeat split; cbn; eauto 10|]. exists (Some Change). intros n v H. cbn [ns_change dget] in H.
    repeat (match type of H with (if String.eqb n ?k then _ else _) = _ => destruct (String.eqb n k) eqn:? end;
      [match goal with E : String.eqb n _ = true |- _ => apply String.eqb_eq in E; subst n end; first [left; reflexivity|right; exists Change; split; [reflexivity|cbn; auto 10]]|]).
    discriminate. }
  intros args ns H. destruct args as [|a [|b [|c [|d rest]]]]; cbn [argparse0] in H.
  - injection H as <-. exact T.
  - destruct (text_eqb a _); discriminate.
  - destruct (text_eqb a _); [injection H as <-; exact C|discriminate].
  - destruct (_ && _)%bool; [injection H as <-; apply P|discriminate].
  - destruct (text_eqb a _); [injection H as <-; exact C|discriminate].
Qed.
Theorem abspath_leads fs cwd p n dir c : tree_ok fs -> Forall plain cwd -> ~ In 0%N p -> meant_place cwd p = n :: dir -> fs (n :: dir) = Some (NFile c) ->
  forall cwd', leads_to fs cwd' (abspath cwd p) (n :: dir) c.
Proof. intros T C Z M F cwd'. split; [|exact F]. rewrite <- M. apply abspath_lookup; try assumption. rewrite M, F. discriminate. Qed.
