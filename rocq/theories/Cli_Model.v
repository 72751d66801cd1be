(** * The command line controller: cli/cli_controller.py, cli/cli_parser.py, cli/parse_results.py *)
From Verif Require Import PyBase Json_Model Settings_Model.
Open Scope list_scope.

(** str.upper and str.lower: ASCII letters as usual, other characters by the argument (the Unicode tables
    are not modelled; a character may map to several). Code: cli_controller.py:126, 156, 186, 213, 237. *)
Definition upper_ascii (c : N) : N := if ((97 <=? c) && (c <=? 122))%N%bool then (c - 32)%N else c.
(** str.lower, cli_controller.py:237. *)
Definition lower_ascii (c : N) : N := if ((65 <=? c) && (c <=? 90))%N%bool then (c + 32)%N else c.
(** str.upper and str.lower on whole strings, cli_controller.py:126, 156, 186, 213, 237. *)
Definition map_text (ascii : N -> N) (other : N -> text) (s : text) : text :=
  flat_map (fun c => if (c <? 128)%N then [ascii c] else other c) s.

(** a == b for the values compared in cli_controller.py (an enumeration member equals only itself, bool is
    an int, tuples by components).  Simplification: a float or a nested list, possible only in files edited
    by hand, equals nothing. *)
Definition num_of (j : json) : option Z := match j with JInt z => Some z | JBool b => Some (if b then 1 else 0)%Z | _ => None end.
(** == of loaded JSON values, cli_controller.py:131, 161, 191, 218, 238, 260. *)
Definition json_eqb (a b : json) : bool :=
  match num_of a, num_of b with
  | Some x, Some y => Z.eqb x y
  | _, _ => match a, b with
            | JStr s, JStr t => text_eqb s t
            | JNull, JNull => true
            | _, _ => false
            end
  end.
(** == of tuples, cli_controller.py:260. *)
Fixpoint list_eqb {A} (e : A -> A -> bool) (a b : list A) : bool :=
  match a, b with
  | [], [] => true
  | x :: a', y :: b' => e x y && list_eqb e a' b'
  | _, _ => false
  end.
(** == of values that are no tuples, cli_controller.py:131, 161, 191, 218, 238. *)
Definition simple_eqb (a b : pyval) : bool :=
  match a, b with
  | VJson x, VJson y => json_eqb x y
  | VContainer x, VContainer y => String.eqb (container_name x) (container_name y)
  | VAlgorithm x, VAlgorithm y => String.eqb (algorithm_name x) (algorithm_name y)
  | VEstimator x, VEstimator y => String.eqb (estimator_name x) (estimator_name y)
  | VLevel x, VLevel y => String.eqb (level_name x) (level_name y)
  | VOther x, VOther y => Nat.eqb x y
  | _, _ => false
  end.
(** == of settings values, cli_controller.py:131, 161, 191, 218, 238, 260. *)
Definition py_eqb (a b : pyval) : bool :=
  match a, b with
  | VTuple x, VTuple y => list_eqb simple_eqb x y
  | _, _ => simple_eqb a b
  end.

(** The controller's service, the files, and the printed lines "changed default .. : old --> new", cli_controller.py:111-267. *)
Inductive message : Type := Changed (k : key) (old new : pyval).
(** cli_controller.py:33-42 and the files and messages its methods change, 111-267. *)
Record cli : Type := mkCli { c_service : service; c_files : files; c_out : list message }.

Section Controller.
  Variables up low : N -> text.
  (** str.upper, cli_controller.py:126, 156, 186, 213. *)
  Definition upper : text -> text := map_text upper_ascii up.
  (** str.lower, cli_controller.py:237. *)
  Definition lower : text -> text := map_text lower_ascii low.

  (** Common end of the change methods: compare, assign, print.  (Simplification: printing does not fail,
      which it would if the old in-memory value were no enumeration member.). Code: cli_controller.py:131-138, 161-168, 191-198, 218-225, 238-245, 260-267. *)
  Definition change_to (k : key) (new shown : pyval) (st : cli) : cli * res unit :=
    let old := get k (c_service st) in
    if py_eqb new old then (st, Ok tt)
    else let '(s', fs', r) := set_property k new (c_service st) (c_files st) in
         match r with
         | Ok _ => (mkCli s' fs' (c_out st ++ [Changed k old shown]), Ok tt)
         | Err e => (mkCli s' fs' (c_out st), Err e)
         end.

  (** cli_controller.py:111-138; the line printed shows the old value twice. *)
  Definition changeContainerSetting (container : text) (st : cli) : cli * res unit :=
    match find (fun c => text_eqb (txt (container_name c)) (upper container)) container_members with
    | None => (st, Err (SystemExit 2))
    | Some c => change_to KContainer (VContainer c) (get KContainer (c_service st)) st
    end.
  (** cli_controller.py:141-168 *)
  Definition changeAlgorithmSetting (algorithm : text) (st : cli) : cli * res unit :=
    match find (fun c => text_eqb (txt (algorithm_name c)) (upper algorithm)) algorithm_members with
    | None => (st, Err (SystemExit 2))
    | Some c => change_to KAlgorithm (VAlgorithm c) (VAlgorithm c) st
    end.
  (** cli_controller.py:171-198 *)
  Definition changeEstimatorSetting (estimator : text) (st : cli) : cli * res unit :=
    match find (fun c => text_eqb (txt (estimator_name c)) (upper estimator)) estimator_members with
    | None => (st, Err (SystemExit 2))
    | Some c => change_to KEstimator (VEstimator c) (VEstimator c) st
    end.
  (** cli_controller.py:201-225 *)
  Definition changeLogLevelSetting (level : text) (st : cli) : cli * res unit :=
    match find (fun c => text_eqb (txt (level_name c)) (upper level)) level_members with
    | None => (st, Err (SystemExit 2))
    | Some c => change_to KLevel (VLevel c) (VLevel c) st
    end.
  (** cli_controller.py:228-245 *)
  Definition changeVerbositySetting (verbose : text) (st : cli) : cli * res unit :=
    let new := VJson (JBool (text_eqb (lower verbose) (txt "true"))) in change_to KVerbose new new st.
  (** cli_controller.py:248-267 *)
  Definition changePrecisionSetting (precision : pyval) (st : cli) : cli * res unit :=
    change_to KPrecision precision precision st.

  (** SettingsParseResults, parse_results.py:12-24; None and "" are both false. *)
  Record settings_args : Type := mkArgs {
    a_print : bool; a_container : option text; a_algorithm : option text; a_estimator : option text;
    a_level : option text; a_verbose : option text; a_precision : option pyval }.
  (** if args.x: change x, cli_controller.py:52-65. *)
  Definition if_text (o : option text) (f : text -> cli -> cli * res unit) (st : cli) : cli * res unit :=
    match o with Some (c :: t) => f (c :: t) st | _ => (st, Ok tt) end.
  (** One statement after another, cli_controller.py:52-67. *)
  Definition andthen (r : cli * res unit) (f : cli -> cli * res unit) : cli * res unit :=
    match snd r with Ok _ => f (fst r) | Err e => (fst r, Err e) end.
  (** cli_controller.py:50-67 *)
  Definition handleChangeSubcommand (args : settings_args) (st : cli) : cli * res unit :=
    andthen (if_text (a_container args) (fun t => changeContainerSetting (t ++ txt "_container")) st) (fun st =>
    andthen (if_text (a_algorithm args) changeAlgorithmSetting st) (fun st =>
    andthen (if_text (a_estimator args) (fun t => changeEstimatorSetting (t ++ txt "_estimator")) st) (fun st =>
    andthen (if_text (a_level args) changeLogLevelSetting st) (fun st =>
    andthen (if_text (a_verbose args) changeVerbositySetting st) (fun st =>
    match a_precision args with
    | Some p => if truthy p then changePrecisionSetting p st else (st, Ok tt)
    | None => (st, Ok tt)
    end))))).
End Controller.

(** The values the parser lets through, cli_parser.py:108-145 (argparse itself is not modelled). *)
Definition choices_container : list string := ["rounding"]%string.
(** cli_parser.py:117-122. *)
Definition choices_algorithm : list string := ["newton_grid"; "simple_argument"; "simple_argument_newton"; "associated_polynomial"]%string.
(** cli_parser.py:127. *)
Definition choices_estimator : list string := ["summation"; "quadrature"]%string.
(** cli_parser.py:132. *)
Definition choices_level : list string := ["debug"; "info"; "warning"; "error"; "critical"]%string.
(** cli_parser.py:137. *)
Definition choices_verbose : list string := ["true"; "True"; "false"; "False"]%string.
