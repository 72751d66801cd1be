(** * Specification of the command line program (C72) *)
From Verif Require Import PyBase Json_Model Settings_Model Settings_Spec Locator_Model Cli_Model Cli_Spec Loader_Model Log_Model Init_Model Init_Spec
  Install_Model Install_Spec Main_Model.
Open Scope list_scope.

(** ** Paths *)
(** The names in a path, and the place it means if the working directory is cwd (there are no symbolic
    links): "" and "." mean nothing, ".." the parent directory. *)
Definition components (s : text) : list text :=
  fold_right (fun c ws => if N.eqb c 47 then [] :: ws else match ws with w :: ws' => (c :: w) :: ws' | [] => [[c]] end) [[]] s.
Definition enter (cur : place) (name : text) : place :=
  if text_eqb name [] then cur else if text_eqb name (txt ".") then cur
  else if text_eqb name (txt "..") then match cur with [] => [] | _ :: up => up end else name :: cur.
Definition meant_place (cwd : place) (path : text) : place :=
  fold_left enter (components path) (match path with c :: _ => if N.eqb c 47 then [] else cwd | [] => cwd end).

(** ** Command lines *)
(** What argparse makes of a command line: the option -t and at most one subcommand with its options. *)
Inductive subcommand : Type := View | Change | Plugin.
Definition options (c : subcommand) : list string :=
  match c with
  | View => ["print"]
  | Change => ["container"; "algorithm"; "estimator"; "log_level"; "verbose"; "precision"]
  | Plugin => ["list"; "modules"; "install"; "uninstall"]
  end%string.
Definition of_subcommand (sub : option subcommand) (ns : namespace) : Prop :=
  forall n v, dget String.eqb n ns = Some v -> n = "test"%string \/ exists c, sub = Some c /\ In n (options c).
Definition off (ns : namespace) (n : string) : Prop :=
  match dget String.eqb n ns with None | Some NoneV | Some (BoolV false) | Some (TextV []) | Some (IntsV []) => True | _ => False end.
Definition on (ns : namespace) (n : string) : Prop := dget String.eqb n ns = Some (BoolV true).
Definition names (ns : namespace) (n : string) (t : text) : Prop := dget String.eqb n ns = Some (TextV t) /\ t <> [].
(** The change options argparse lets through. *)
Definition choice (choices : list string) (v : option value) : Prop :=
  match v with None | Some NoneV => True | Some (TextV t) => exists c, In c choices /\ t = txt c | _ => False end.
Definition let_through (ns : namespace) : Prop :=
  choice ["rounding"] (dget String.eqb "container" ns) /\
  choice ["newton_grid"; "simple_argument"; "simple_argument_newton"; "associated_polynomial"] (dget String.eqb "algorithm" ns) /\
  choice ["summation"; "quadrature"] (dget String.eqb "estimator" ns) /\
  choice ["debug"; "info"; "warning"; "error"; "critical"] (dget String.eqb "log_level" ns) /\
  choice ["true"; "True"; "false"; "False"] (dget String.eqb "verbose" ns) /\
  match dget String.eqb "precision" ns with None | Some NoneV => True | Some (IntsV l) => List.length l = 2%nat | _ => False end.
(** The parser only lets through such command lines. *)
Definition argparse_ok (argparse : list text -> parse) : Prop :=
  forall args ns, argparse args = Parsed ns -> let_through ns /\ exists sub, of_subcommand sub ns.

(** The settings a command line asks for. *)
Definition word (ns : namespace) (n : string) : option text :=
  match dget String.eqb n ns with Some (TextV t) => Some t | _ => None end.
Definition change_request (ns : namespace) : settings_args :=
  mkArgs (match dget String.eqb "print" ns with Some (BoolV true) => true | _ => false end)
    (word ns "container") (word ns "algorithm") (word ns "estimator") (word ns "log_level") (word ns "verbose")
    (match dget String.eqb "precision" ns with Some (IntsV [x; y]) => Some (VTuple [VJson (JInt x); VJson (JInt y)]) | _ => None end).

(** ** Runs *)
Definition installing (p : text) : act := Printed (txt "installing plugin " ++ p ++ txt "...").
Definition uninstalling (p : text) : act := Printed (txt "uninstalling plugin " ++ p ++ txt "...").
(** A machine with working settings. *)
Definition working (m : machine) (s : service) : Prop := files_ok (m_files m) /\ settings_init (m_files m) = Ok s.
(** A run: its arguments, the directory it is started in and the state of its logging. *)
Record invocation : Type := mkInvocation { i_argv : list text; i_cwd : place; i_logs : logging }.
Section Runs.
  Variable run : invocation -> machine -> outcome.
  (** The machine after some runs. *)
  Definition machine_after (h : list invocation) (m : machine) : machine := fold_left (fun m i => fst (fst (run i m))) h m.
End Runs.
(** The settings the runs of a history ask for, in their order. *)
Definition change_requests (argparse : list text -> parse) (h : list invocation) : list settings_args :=
  flat_map (fun i => match argparse (tl (i_argv i)) with Parsed ns => [change_request ns] | Exits _ => [] end) h.
(** Command lines that select a subcommand (or -t). *)
Definition selects (argparse : list text -> parse) (c : subcommand) (i : invocation) : bool :=
  match argparse (tl (i_argv i)) with
  | Parsed ns => existsb (fun n => match dget String.eqb n ns with Some _ => true | None => false end) (options c)
  | Exits _ => false
  end.
Definition no_tests (argparse : list text -> parse) (i : invocation) : Prop :=
  forall ns, argparse (tl (i_argv i)) = Parsed ns -> off ns "test".
