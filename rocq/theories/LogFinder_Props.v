(** * C83: the log level of a finder *)
From Verif Require Import PyBase Json_Model Settings_Model Log_Model Log_Spec LogFinder_Model LogFinder_Spec LogFinder_Proofs.
Open Scope list_scope.

(** finder.setLevel(lv) after any history [h]: it sets the level of every object of the classes of
    the finder, its container and its algorithm, and of no other object. *)
Theorem C83_set : forall DATE class_of x lv s h st, fresh st ->
  (is_ok s = true \/ forall i, named x i -> used h i) ->
  let before := after DATE (module_of_object class_of) h st in
  let r := finder_setLevel DATE class_of x lv s before in
  snd r = Ok tt /\
  (forall i j, named x i -> class_of j = class_of i -> level_at class_of (fst r) j = level_value lv) /\
  (forall j, (forall i, named x i -> class_of j <> class_of i) -> level_at class_of (fst r) j = level_at class_of before j).
Proof. exact level_set. Qed.
Print Assumptions C83_set.

(** If no settings can be resolved it raises exactly if one of the three never used its logger. *)
Theorem C83_failure : forall DATE class_of x lv s h st, fresh st -> forall e, s = Err e ->
  let r := finder_setLevel DATE class_of x lv s (after DATE (module_of_object class_of) h st) in
  (snd r = Ok tt \/ snd r = Err e) /\ (snd r = Ok tt <-> forall i, named x i -> used h i).
Proof. exact level_fails. Qed.
Print Assumptions C83_failure.

(** Right after it the three objects write exactly the messages at or above the level. *)
Theorem C83_messages : forall DATE class_of x lv s h st, fresh st -> forall i lv' m s',
  (is_ok s = true \/ forall i, named x i -> used h i) -> lv <> NOTSET -> lg_handlers (root st) = [] -> named x i ->
  let st1 := fst (finder_setLevel DATE class_of x lv s (after DATE (module_of_object class_of) h st)) in
  exists p, output (fst (log DATE (module_of_object class_of) i lv' m s' st1)) = output st1 ++
    (if Z.leb (level_value lv) (level_value lv')
     then [((p, buildFileName DATE), mkRecord (module_name (class_of i)) (level_value lv') m)] else []).
Proof. exact message. Qed.
Print Assumptions C83_messages.

(** That all dependent objects are set is false: the estimator of the algorithm keeps its level, and its
    messages are still dropped. *)
Definition parts1 : finder_parts := mkParts 0 1 2 (Some 3%nat).
Definition classes1 (i : nat) : class :=
  match i with 0 | 4 => CRootFinder | 1 => CRoundingContainer | 2 => CSimpleArgument | _ => CSummationEstimator end%nat.
Definition started1 : list event :=
  [EAccess 3 (Ok WARNING); EAccess 2 (Ok WARNING); EAccess 1 (Ok WARNING); EAccess 0 (Ok WARNING)]%nat.
Definition process1 : logging := mkLogging 7 (fun _ => Missing) [] (mkLogger 30 []) [] [].
Definition day1 : date := mkDate 2023 1 9 7 5 3.
Theorem C83_all_dependents_refuted :
  exists DATE class_of x h st e m, fresh st /\ fp_estimator x = Some e /\
  let st1 := fst (finder_setLevel DATE class_of x DEBUG (Ok WARNING) (after DATE (module_of_object class_of) h st)) in
  level_at class_of st1 e = level_value WARNING /\
  output (fst (log DATE (module_of_object class_of) e INFO m (Ok WARNING) st1)) = output st1.
Proof.
  exists day1, classes1, parts1, started1, process1, 3%nat, (txt "m").
  split; [unfold fresh; cbn; repeat split; discriminate|]. split; [reflexivity|]. split; vm_compute; reflexivity.
Qed.
Print Assumptions C83_all_dependents_refuted.

(** That only this finder and its own parts are concerned is false: every finder of the class is. *)
Theorem C83_only_this_finder_refuted : forall DATE class_of x lv s h st j, fresh st -> is_ok s = true ->
  class_of j = class_of (fp_finder x) ->
  level_at class_of (fst (finder_setLevel DATE class_of x lv s (after DATE (module_of_object class_of) h st))) j = level_value lv.
Proof.
  intros DATE class_of x lv s h st j F K E.
  exact (proj1 (proj2 (level_set DATE class_of x lv s h st F (or_introl K))) (fp_finder x) j (or_introl eq_refl) E).
Qed.
Print Assumptions C83_only_this_finder_refuted.

(** The hypotheses are met by a finder created under WARNING; at DEBUG the algorithm's info message is
    written, and another finder (object 4) logs at DEBUG, too. *)
Theorem C83_nonvacuous :
  fresh process1 /\ (forall i, named parts1 i -> used started1 i) /\
  let st1 := fst (finder_setLevel day1 classes1 parts1 DEBUG (Err InvalidServiceConfiguration)
    (after day1 (module_of_object classes1) started1 process1)) in
  map (level_at classes1 st1) [0; 1; 2; 3; 4]%nat = [10; 10; 10; 30; 10]%Z /\
  output (fst (log day1 (module_of_object classes1) 2 INFO (txt "m") (Ok WARNING) st1)) =
    [((7%nat, buildFileName day1), mkRecord (txt "simple_holo") 20 (txt "m"))].
Proof.
  split; [unfold fresh; cbn; repeat split; discriminate|]. split; [|vm_compute; split; reflexivity].
  intros i [->|[->| ->]].
  - exists (EAccess 0 (Ok WARNING)), WARNING. split; [right; right; right; left; reflexivity|reflexivity].
  - exists (EAccess 1 (Ok WARNING)), WARNING. split; [right; right; left; reflexivity|reflexivity].
  - exists (EAccess 2 (Ok WARNING)), WARNING. split; [right; left; reflexivity|reflexivity].
Qed.
Print Assumptions C83_nonvacuous.
