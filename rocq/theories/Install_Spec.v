(** * Specification of plugin installation (C59) *)
From Verif Require Import PyBase Json_Model Install_Model.
Open Scope list_scope.

(** A directory tree: the root is a directory, and everything is in a directory; names are neither
    empty nor "." nor "..". *)
Definition tree_ok (fs : tree) : Prop :=
  fs [] = Some NDir /\ (forall n q, fs (n :: q) <> None -> fs q = Some NDir) /\
  (forall n q, fs (n :: q) <> None -> n <> [] /\ n <> txt "." /\ n <> txt "..").
(** A plain file name. *)
Definition plain (s : text) : Prop := s <> [] /\ s <> txt "." /\ s <> txt ".." /\ ~ In slash s /\ ~ In 0%N s.
(** The plugin directory: an absolute path to a directory d. *)
Definition plugin_dir (fs : tree) (DIR : text) (d : place) : Prop :=
  starts_with_slash DIR = true /\ ends_with_slash DIR = false /\ (forall cwd, lookup fs cwd DIR = Ok d) /\ fs d = Some NDir.
(** The path s leads to the file q with the given content. *)
Definition leads_to (fs : tree) (cwd : place) (s : text) (q : place) (content : text) : Prop :=
  lookup fs cwd s = Ok q /\ fs q = Some (NFile content).
(** fs' differs from fs only at q, where it has n. *)
Definition differs_at (q : place) (n : option node) (fs fs' : tree) : Prop :=
  fs' q = n /\ forall q', q' <> q -> fs' q' = fs q'.
Definition same_tree (fs fs' : tree) : Prop := forall q, fs' q = fs q.
(** q is in the directory d (at any depth). *)
Definition below (d q : place) : Prop := exists p, p <> [] /\ q = p ++ d.

(** Calls of the helper, and their effect in any order. *)
Inductive plugin_call : Type := CInstall (fullPath : text) | CUninstall (filename : text).
Definition perform_call (DIR : text) (cwd : place) (c : plugin_call) (fs : tree) : tree :=
  match c with
  | CInstall p => fst (installPlugin DIR cwd p fs)
  | CUninstall f => fst (uninstallPlugin DIR cwd f fs)
  end.
Definition calls (DIR : text) (cwd : place) (h : list plugin_call) (fs : tree) : tree :=
  fold_left (fun fs c => perform_call DIR cwd c fs) h fs.
Definition plain_call (c : plugin_call) : Prop := match c with CInstall _ => True | CUninstall f => plain f end.
