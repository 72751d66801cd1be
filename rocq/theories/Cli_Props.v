(** * Properties C57, C58: the command line controller *)
From Verif Require Import PyBase Json_Model Settings_Model Settings_Spec Settings_Proofs3 Factory_Model Factory_Spec Cli_Model Cli_Spec Cli_Proofs2.
Open Scope list_scope.

(** ** C57 *)
(** A change command sets the requested settings to the requested values (unless already set), keeps the
    others, keeps all other entries of the file and the shipped file; if everything is already set nothing is
    written or printed; a second run changes and prints nothing. *)
Theorem C57_change_effect : forall up low args fs s, precision_pair args -> files_ok fs -> settings_init fs = Ok s ->
  (forall k, understood up low args k) ->
  exists fs' ms s', run_change up low args fs = (fs', ms, Ok tt) /\ settings_init fs' = Ok s' /\
    (forall k, carried_out up low args k s s') /\
    default_file fs' = default_file fs /\
    (exists d d', contents (custom_file fs) d /\ contents (custom_file fs') d' /\
       forall name, (forall k, asks args k -> name <> key_name k) -> dget text_eqb name d' = dget text_eqb name d) /\
    ((forall k v, wants up low args k v -> already v (get k s)) -> fs' = fs /\ ms = []) /\
    run_change up low args fs' = (fs', [], Ok tt).
Proof. intros up low args fs s P. exact (change_spec up low args P fs s). Qed.
Print Assumptions C57_change_effect.
(** A line "old --> new" is printed exactly for the settings that change; old is the former value, new the
    requested one, except for the container, where new is the former value. *)
Theorem C57_messages : forall up low args fs s, precision_pair args -> files_ok fs -> settings_init fs = Ok s ->
  (forall k, understood up low args k) ->
  forall k o n, In (Changed k o n) (snd (fst (run_change up low args fs))) <->
    exists v, wants up low args k v /\ ~ already v (get k s) /\ o = get k s /\ n = match k with KContainer => get k s | _ => v end.
Proof. intros up low args fs s P. exact (messages_spec up low args P fs s). Qed.
Print Assumptions C57_messages.
Theorem C57_container_message_refuted : exists up low args fs' s',
  run_change up low args fs0 = (fs', [Changed KContainer (VContainer ROUNDING_CONTAINER) (VContainer ROUNDING_CONTAINER)], Ok tt) /\
  settings_init fs' = Ok s' /\ get KContainer s' = VContainer PLAIN_CONTAINER.
Proof. exact container_message. Qed.
Print Assumptions C57_container_message_refuted.
Example C57_nonvacuous : let args := mkArgs false None (Some (txt "Newton_Grid")) None None (Some (txt "FALSE")) (Some p67) in
  let none := fun _ : N => @nil N in
  precision_pair args /\ (forall k, understood none none args k) /\
  exists fs' s', run_change none none args fs0 = (fs', [Changed KAlgorithm (VAlgorithm SIMPLE_ARGUMENT) (VAlgorithm NEWTON_GRID);
      Changed KVerbose (VJson (JBool true)) (VJson (JBool false)); Changed KPrecision (VTuple [VJson (JInt 5); VJson (JInt 5)]) p67], Ok tt) /\
    settings_init fs' = Ok s' /\ get KPrecision s' = p67 /\ get KAlgorithm s' = VAlgorithm NEWTON_GRID.
Proof.
  cbv zeta. split; [|split].
  - intros p E _. injection E as <-. exists (VJson (JInt 6)), (VJson (JInt 7)). repeat split.
  - intros k A. pose proof A as A'. destruct k; cbn in A.
    + destruct A as (t & E & _). discriminate.
    + exists (VAlgorithm NEWTON_GRID). split; [exact A'|]. exists (txt "Newton_Grid"), NEWTON_GRID. repeat split.
    + destruct A as (t & E & _). discriminate.
    + destruct A as (t & E & _). discriminate.
    + exists (VJson (JBool false)). split; [exact A'|]. exists (txt "FALSE"), false. split; [reflexivity|]. split; [|reflexivity]. split; discriminate.
    + exists p67. split; [exact A'|]. reflexivity.
  - eexists. eexists. split; [vm_compute; reflexivity|]. split; [vm_compute; reflexivity|]. split; reflexivity.
Qed.

(** ** C58 *)
(** ASCII names are matched up to case against the known names. *)
Theorem C58_names : forall up low args k t v, In k [KContainer; KAlgorithm; KEstimator; KLevel] ->
  option_of args k = Some t -> t <> [] -> ascii t ->
  (wants up low args k v <-> exists n, In (n, v) (known k) /\ nocase t (txt n)).
Proof. exact names_spec. Qed.
Print Assumptions C58_names.
(** Any unknown name makes the command exit with code 2; the options before the first unknown one have been
    carried out, this one and the following ones leave their settings alone. *)
Theorem C58_unknown_name : forall up low args fs s, precision_pair args -> files_ok fs -> settings_init fs = Ok s ->
  (exists k, ~ understood up low args k) ->
  exists k fs' ms s', asks args k /\ (forall v, ~ wants up low args k v) /\
    run_change up low args fs = (fs', ms, Err (SystemExit 2)) /\ settings_init fs' = Ok s' /\ default_file fs' = default_file fs /\
    (forall k', (position k' < position k)%nat -> understood up low args k' /\ carried_out up low args k' s s') /\
    (forall k', (position k <= position k')%nat -> get k' s' = get k' s).
Proof. intros up low args fs s P. exact (unknown_spec up low args P fs s). Qed.
Print Assumptions C58_unknown_name.
Theorem C58_failure_atomicity_refuted : exists up low args fs' ms s',
  run_change up low args fs0 = (fs', ms, Err (SystemExit 2)) /\ settings_init fs' = Ok s' /\ get KAlgorithm s' = VAlgorithm NEWTON_GRID /\
  get KAlgorithm service0 = VAlgorithm SIMPLE_ARGUMENT.
Proof. exact not_atomic. Qed.
Print Assumptions C58_failure_atomicity_refuted.
(** Every verbosity other than "true" (up to case) means False. *)
Theorem C58_verbosity : forall up low args t, a_verbose args = Some t -> t <> [] -> ascii t ->
  (nocase t (txt "true") -> wants up low args KVerbose (VJson (JBool true))) /\
  (~ nocase t (txt "true") -> wants up low args KVerbose (VJson (JBool false))).
Proof. exact verbosity_spec. Qed.
Print Assumptions C58_verbosity.
Theorem C58_verbosity_checked_refuted : exists up low fs' ms s',
  run_change up low (mkArgs false None None None None (Some (txt "treu")) None) fs0 = (fs', ms, Ok tt) /\
  get KVerbose service0 = VJson (JBool true) /\ settings_init fs' = Ok s' /\ get KVerbose s' = VJson (JBool false).
Proof. exact typo. Qed.
Print Assumptions C58_verbosity_checked_refuted.
(** Commands that passed the parser always succeed, whatever their number and order, and leave settings
    with which a root finder can be created. *)
Theorem C58_parsed_commands_keep_usable : forall up low cmds fs s, files_ok fs -> settings_init fs = Ok s ->
  Forall from_parser cmds -> usable s ->
  exists s', settings_init (runs up low cmds fs) = Ok s' /\ usable s' /\
  (forall pre c post, cmds = pre ++ c :: post -> snd (run_change up low c (runs up low pre fs)) = Ok tt) /\
  forall depth c, (4 <= depth)%nat ->
    exists o, new_finder depth (settings_init (runs up low cmds fs)) c (VContainer DEFAULT_CONTAINER) (VAlgorithm DEFAULT_ALGORITHM)
                (VEstimator DEFAULT_ESTIMATOR) py_none None None = Ok o.
Proof. exact parsed_commands. Qed.
Print Assumptions C58_parsed_commands_keep_usable.
(** Without the parser's check this fails. *)
Theorem C58_controller_usable_refuted : exists up low fs' ms,
  run_change up low (mkArgs false None (Some (txt "default")) None None None None) fs0 = (fs', ms, Ok tt) /\
  forall depth c, new_finder depth (settings_init fs') c (VContainer DEFAULT_CONTAINER) (VAlgorithm DEFAULT_ALGORITHM)
                (VEstimator DEFAULT_ESTIMATOR) py_none None None = Err RecursionError.
Proof. exact default_algorithm. Qed.
Print Assumptions C58_controller_usable_refuted.
Example C58_nonvacuous : usable service0 /\ files_ok fs0 /\ settings_init fs0 = Ok service0 /\
  from_parser (mkArgs false (Some (txt "rounding")) (Some (txt "newton_grid")) None None (Some (txt "True")) (Some p67)) /\
  nocase (txt "SumMation") (txt "SUMMATION").
Proof.
  split; [repeat split|]. split; [exact fs0_ok|]. split; [exact fs0_init|]. split.
  - repeat split; cbn.
    + right. exists "rounding"%string. split; [left; reflexivity|reflexivity].
    + right. exists "newton_grid"%string. split; [left; reflexivity|reflexivity].
    + right. exists "True"%string. split; [right; left; reflexivity|reflexivity].
    + exists 6%Z, 7%Z. reflexivity.
  - repeat constructor; unfold same_letter; cbn; lia.
Qed.
