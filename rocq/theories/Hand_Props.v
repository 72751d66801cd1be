(** * Property C79: what settings files mean (also files edited by hand) *)
From Verif Require Import PyBase Json_Model JsonText_Spec Settings_Model Settings_Spec Settings_Proofs Settings_Proofs3 Hand_Spec Hand_Proofs.
Open Scope list_scope.

(** For files with JSON objects in them (or missing): a new settings service is created exactly if every setting is said
    to be something that is read, and then has these values.  The custom file comes first, entry by entry. *)
Theorem C79_values : forall fs dd dc s, files_ok fs -> contents (default_file fs) dd -> contents (custom_file fs) dc ->
  (settings_init fs = Ok s <-> forall k, exists j, says dd dc k = Some j /\ reads k j (get k s)).
Proof. exact files_read. Qed.
Print Assumptions C79_values.
Theorem C79_readable : forall fs dd dc, files_ok fs -> contents (default_file fs) dd -> contents (custom_file fs) dc ->
  ((exists s, settings_init fs = Ok s) <-> forall k, exists j v, says dd dc k = Some j /\ reads k j v).
Proof. exact readable_files. Qed.
Print Assumptions C79_readable.

(** The errors, and what each of them says about the files. *)
Theorem C79_errors : forall fs dd dc e, files_ok fs -> contents (default_file fs) dd -> contents (custom_file fs) dc -> settings_init fs = Err e ->
  (e = KeyError /\ exists k, says dd dc k = None /\ (k = KContainer \/ k = KAlgorithm \/ k = KEstimator \/ k = KLevel)) \/
  (e = IndexError /\ exists l, says dd dc KPrecision = Some (JList l) /\ (List.length l < 2)%nat) \/
  (e = InvalidSettingException /\ exists k, forall j, says dd dc k = Some j -> forall v, ~ reads k j v).
Proof. exact unread_error. Qed.
Print Assumptions C79_errors.
Theorem C79_missing_core : forall fs dd dc k, files_ok fs -> contents (default_file fs) dd -> contents (custom_file fs) dc ->
  k = KContainer \/ k = KAlgorithm \/ k = KEstimator -> says dd dc k = None -> settings_init fs = Err KeyError.
Proof. exact missing_core. Qed.
Print Assumptions C79_missing_core.
(** Files that are not JSON, or not objects. *)
Theorem C79_not_json : forall fs,
  (forall t, default_file fs = Some t -> unreadable t -> settings_init fs = Err JSONDecodeError) /\
  (forall dd t, contents (default_file fs) dd -> custom_file fs = Some t -> unreadable t -> settings_init fs = Err JSONDecodeError) /\
  (forall t j, default_file fs = Some t -> document j t -> (forall d, j <> JObj d) -> settings_init fs = Err AttributeError) /\
  (forall dd t j, contents (default_file fs) dd -> custom_file fs = Some t -> document j t -> (forall d, j <> JObj d) -> settings_init fs = Err AttributeError).
Proof. exact not_json. Qed.
Print Assumptions C79_not_json.

(** Nothing else in the files matters: other entries, order, layout, in which file an entry stands. *)
Theorem C79_nothing_else_matters : forall fs fs' dd dc dd' dc', files_ok fs -> files_ok fs' -> contents (default_file fs) dd -> contents (custom_file fs) dc ->
  contents (default_file fs') dd' -> contents (custom_file fs') dc' -> (forall k, says dd dc k = says dd' dc' k) -> settings_init fs = settings_init fs'.
Proof. exact same_sayings. Qed.
Print Assumptions C79_nothing_else_matters.

(** A setting that cannot be read, in files that are otherwise fine, is repaired by a setter call (of a service
    object made earlier). *)
Theorem C79_repair : forall fs dd dc k v w s, files_ok fs -> contents (default_file fs) dd -> contents (custom_file fs) dc -> accepted k v = Some w ->
  (forall k', k' <> k -> exists j x, says dd dc k' = Some j /\ reads k' j x) ->
  let '(_, fs', r) := set_property k v s fs in r = Ok tt /\ exists s', settings_init fs' = Ok s' /\ get k s' = w /\
    forall k' j, k' <> k -> says dd dc k' = Some j -> reads k' j (get k' s').
Proof. exact repair. Qed.
Print Assumptions C79_repair.

(** Values read from files are not checked the way the setters check them: a service created from a file can have
    a precision that is no pair of integers, and the word false in quotes means true. *)
Definition by_hand (s : string) : files := mkFiles (Some shipped_default) (Some (txt s)).
Definition quoted (s : string) : string := q s.
Definition careless : string := ("{" ++ quoted "verbose" ++ ": " ++ quoted "false" ++ ", " ++ quoted "precision" ++ ": [" ++ quoted "x" ++ ", null, 7], " ++ quoted "mine" ++ ": {}}")%string.
Theorem C79_checks_refuted : exists fs s, files_ok fs /\ settings_init fs = Ok s /\
  get KVerbose s = VJson (JBool true) /\ get KPrecision s = VTuple [VJson (JStr (txt "x")); VJson JNull] /\ accepted KPrecision (get KPrecision s) = None /\
  exists dc, contents (custom_file fs) dc /\ dget text_eqb (txt "verbose") dc = Some (JStr (txt "false")).
Proof.
  exists (by_hand careless). eexists. split; [split; apply unicode_ascii; vm_compute; reflexivity|].
  split; [vm_compute; reflexivity|]. split; [reflexivity|]. split; [reflexivity|]. split; [reflexivity|].
  eexists. split; [apply contents_holds; vm_compute; reflexivity|]. vm_compute. reflexivity.
Qed.
Print Assumptions C79_checks_refuted.

(** A file with an unknown level, and its repair. *)
Definition misspelt : string := ("{" ++ quoted "logLevel" ++ ": " ++ quoted "Debug" ++ ", " ++ quoted "precision" ++ ": [3, 4]}")%string.
Example C79_nonvacuous : exists dd dc, files_ok (by_hand misspelt) /\ contents (default_file (by_hand misspelt)) dd /\ contents (custom_file (by_hand misspelt)) dc /\
  settings_init (by_hand misspelt) = Err InvalidSettingException /\ (forall k, k <> KLevel -> exists j v, says dd dc k = Some j /\ reads k j v) /\
  says dd dc KPrecision = Some (JList [JInt 3; JInt 4]) /\ accepted KLevel (VLevel DEBUG) = Some (VLevel DEBUG) /\
  settings_init (by_hand "[]") = Err AttributeError /\ settings_init (mkFiles None None) = Err KeyError.
Proof.
  eexists. eexists. split; [split; apply unicode_ascii; vm_compute; reflexivity|].
  split; [apply contents_holds; vm_compute; reflexivity|]. split; [apply contents_holds; vm_compute; reflexivity|]. split; [vm_compute; reflexivity|]. split.
  - intros k N. destruct k; try contradiction.
    + eexists. eexists. split; [vm_compute; reflexivity|]. exists ROUNDING_CONTAINER. split; reflexivity.
    + eexists. eexists. split; [vm_compute; reflexivity|]. exists SIMPLE_ARGUMENT. split; reflexivity.
    + eexists. eexists. split; [vm_compute; reflexivity|]. exists SUMMATION_ESTIMATOR. split; reflexivity.
    + eexists. eexists. split; [vm_compute; reflexivity|]. split; [discriminate|]. exists true. split; [reflexivity|]. split; [discriminate|].
      intros [H|[H|[H|[H|[H|(t & u & H & _)]]]]]; discriminate.
    + eexists. eexists. split; [vm_compute; reflexivity|]. eexists _, _, _. split; reflexivity.
  - split; [vm_compute; reflexivity|]. split; [reflexivity|]. split; vm_compute; reflexivity.
Qed.
