(** * Property C62: logging *)
From Verif Require Import PyBase Json_Model Settings_Model Log_Model Log_Spec Log_Proofs.
Open Scope list_scope.

(** Two sessions use the same file name iff they started in the same second. *)
Theorem C62_file_name : forall a b, valid_date a -> valid_date b -> (buildFileName a = buildFileName b <-> a = b).
Proof. intros a b A B. split; [exact (name_injective a b A B)|intros ->; reflexivity]. Qed.
Print Assumptions C62_file_name.
(** Whatever happens, a logger has at most one handler (exactly one once it is initialized and the root logger
    has none): the file of the session in the directory that was current when it was initialized first. *)
Theorem C62_one_handler : forall DATE module_of h st n, fresh st ->
  lg_handlers (getLogger n (after DATE module_of h st)) =
  match lg_handlers (root st) with
  | [] => match place_of module_of (cwd st) (rev h) n with Some p => [(p, buildFileName DATE)] | None => [] end
  | _ => []
  end.
Proof. intros DATE mo h st n F. exact (i_hand _ _ _ _ _ _ (after_inv DATE mo (root st) (cwd st) h st F eq_refl eq_refl) n). Qed.
Print Assumptions C62_one_handler.
Theorem C62_initialized_logger_has_a_place : forall module_of d h1 h2 e n lv,
  initializes module_of (rev h1) e n = Some lv -> place_of module_of d (rev (h1 ++ e :: h2)) n <> None.
Proof.
  intros mo d h1 h2 e n lv H. rewrite rev_app_distr. cbn [rev]. rewrite <- app_assoc. exact (place_after_init mo d (rev h1) (rev h2) e n lv H).
Qed.
Print Assumptions C62_initialized_logger_has_a_place.
Theorem C62_one_directory : forall module_of d h n p, (forall p', ~ In (EChdir p') h) ->
  place_of module_of d (rev h) n = Some p -> p = d.
Proof. intros mo d h n p H. apply (no_chdir mo d (rev h)). intros p' I. apply in_rev in I. exact (H p' I). Qed.
Print Assumptions C62_one_directory.
(** The level of a logger is the one set last: by setLevel of any object of its module, by the first use of any
    object of its module (the level configured then), or by name. *)
Theorem C62_last_level : forall DATE module_of h st n, fresh st ->
  lg_level (getLogger n (after DATE module_of h st)) =
  match level_of module_of (rev h) n with Some lv => level_value lv | None => 0%Z end.
Proof. intros DATE mo h st n F. exact (i_level _ _ _ _ _ _ (after_inv DATE mo (root st) (cwd st) h st F eq_refl eq_refl) n). Qed.
Print Assumptions C62_last_level.
(** So a level set for a module is lost when another object of it logs for the first time. *)
Theorem C62_level_is_kept_refuted : forall DATE module_of h i j lv s lv' st, fresh st -> module_of i = module_of j ->
  (forall e, In e h -> match user e with Some (k, _) => k <> j | None => True end) -> i <> j ->
  lg_level (getLogger (module_of i) (after DATE module_of (h ++ [ESetLevel i lv s; EAccess j (Ok lv')]) st)) = level_value lv'.
Proof. exact reset. Qed.
Print Assumptions C62_level_is_kept_refuted.
(** What is written in all: every message at or above its logger's threshold, once and in order. *)
Theorem C62_written : forall DATE module_of h st, fresh st -> lg_handlers (root st) = [] ->
  output (after DATE module_of h st) = written DATE module_of (lg_level (root st)) (cwd st) (rev h).
Proof. intros DATE mo h st F. exact (outputs DATE mo (root st) (cwd st) h st F eq_refl eq_refl). Qed.
Print Assumptions C62_written.
(** An object's use of its logger raises only if there are no settings and it has no logger yet. *)
Theorem C62_raises : forall DATE module_of h st e, fresh st ->
  is_ok (snd (perform DATE module_of e (after DATE module_of h st))) =
  match user e with Some (i, Err _) => has_logger (rev h) i | _ => true end.
Proof.
  intros DATE mo h st e F. pose proof (after_inv DATE mo (root st) (cwd st) h st F eq_refl eq_refl) as I.
  assert (A : forall i s, is_ok (snd (access DATE mo i s (after DATE mo h st))) = match s with Err _ => has_logger (rev h) i | _ => true end).
  { intros i s. destruct (access_inv DATE mo (root st) (cwd st) (rev h) _ i s I) as (_ & _ & K). rewrite K. unfold has_logger.
    cbn [existsb user]. destruct s; [rewrite Nat.eqb_refl|]; reflexivity. }
  destruct e as [i s|i lv s|i lv m s|n lv|p]; cbn [perform user].
  - rewrite A. destruct s; reflexivity.
  - specialize (A i s). unfold setLevel. destruct (access DATE mo i s (after DATE mo h st)) as [st1 [u|x]]; cbn [snd is_ok] in *; rewrite A; destruct s; reflexivity.
  - specialize (A i s). unfold log. destruct (access DATE mo i s (after DATE mo h st)) as [st1 [u|x]]; cbn [snd is_ok] in *; rewrite A; destruct s; reflexivity.
  - destruct (initLogger_ok DATE n lv (after DATE mo h st) (i_dirs _ _ _ _ _ _ I)) as (st' & E & _). rewrite E. reflexivity.
  - reflexivity.
Qed.
Print Assumptions C62_raises.
(** Concurrent starts: no failure if the directory exists; otherwise whoever loses the race fails. *)
Theorem C62_concurrent_start : forall schedule,
  (forall p, fst (mrun schedule Directory) p <> MFailed) /\
  ((exists p, fst (mrun schedule Missing) p = MFailed) -> exists q, fst (mrun schedule Missing) q = MReady).
Proof.
  intro s. split; [intro p; apply (mkdir_ready s)|]. intros [p E]. destruct (mkdir_missing s) as [[_ A]|[_ A]]; [|exact A].
  destruct (A p); congruence.
Qed.
Print Assumptions C62_concurrent_start.
Theorem C62_concurrent_start_refuted : exists schedule, fst (mrun schedule Missing) 0%nat = MReady /\ fst (mrun schedule Missing) 1%nat = MFailed.
Proof. exists race. exact mkdir_race. Qed.
Print Assumptions C62_concurrent_start_refuted.

(** Non-vacuity: WARNING is configured, an info message is dropped; at DEBUG it is written; a second object of
    the module resets the level; a NOTSET logger drops it as well (the root level is WARNING); and a module
    that starts logging after chdir gets another file. *)
Definition modules1 (i : nat) : text := if Nat.ltb i 2 then txt "rootfinder" else txt "simple_holo".
Definition start1 : logging := mkLogging 7 (fun _ => Missing) [] (mkLogger 30 []) [] [].
Definition history1 : list event :=
  [ELog 0 INFO (txt "a") (Ok WARNING); ESetLevel 0 DEBUG (Ok WARNING); ELog 0 INFO (txt "b") (Ok WARNING); EAccess 1 (Ok ERROR);
   ELog 0 WARNING (txt "c") (Ok WARNING); ELog 1 CRITICAL (txt "d") (Err InvalidServiceConfiguration); EChdir 8; ESetLevel 0 NOTSET (Ok WARNING);
   ELog 0 INFO (txt "e") (Ok WARNING); ELog 2 ERROR (txt "f") (Ok WARNING); ELog 3 ERROR (txt "g") (Err InvalidServiceConfiguration)]%nat.
Definition date1 : date := mkDate 2023 1 9 7 5 3.
Example C62_nonvacuous : fresh start1 /\ valid_date date1 /\ buildFileName date1 = txt "pyzeal_09012023070503.log" /\
  output (after date1 modules1 history1 start1) =
    [((7%nat, buildFileName date1), mkRecord (txt "rootfinder") 20 (txt "b")); ((7%nat, buildFileName date1), mkRecord (txt "rootfinder") 50 (txt "d"));
     ((8%nat, buildFileName date1), mkRecord (txt "simple_holo") 40 (txt "f"))].
Proof.
  repeat split; try discriminate; vm_compute; reflexivity.
Qed.
