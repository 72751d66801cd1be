(** * Property C59: plugin installation *)
From Verif Require Import PyBase Json_Model Install_Model Install_Spec Install_Proofs.
Open Scope list_scope.

(** Installing a file puts a copy of it into the plugin directory under its own name; nothing else changes
    (the source may be given by any path, relative or not). *)
Theorem C59_install : forall fs DIR d cwd p q c, tree_ok fs -> plugin_dir fs DIR d -> leads_to fs cwd p q c ->
  q <> basename p :: d -> fs (basename p :: d) <> Some NDir ->
  exists fs', installPlugin DIR cwd p fs = (fs', Ok true) /\ differs_at (basename p :: d) (Some (NFile c)) fs fs'.
Proof. intros fs DIR d cwd p q c T P. exact (install_file fs DIR d cwd T P p q c). Qed.
Print Assumptions C59_install.
(** A missing file: False; a directory, a file that is already in place, or a directory of that name in the
    plugin directory: an exception.  Nothing changes. *)
Theorem C59_install_missing : forall fs DIR cwd p, exists_ fs cwd p = false -> installPlugin DIR cwd p fs = (fs, Ok false).
Proof. exact install_missing. Qed.
Print Assumptions C59_install_missing.
Theorem C59_install_refused : forall fs DIR d cwd p q, tree_ok fs -> plugin_dir fs DIR d -> lookup fs cwd p = Ok q ->
  fs q = Some NDir \/ q = basename p :: d /\ fs q <> None \/ fs q <> None /\ fs (basename p :: d) = Some NDir ->
  installPlugin DIR cwd p fs = (fs, Err OSError).
Proof. intros fs DIR d cwd p q T P. exact (install_refused fs DIR d cwd T P p q). Qed.
Print Assumptions C59_install_refused.
(** Uninstalling a plain name removes exactly this file, or reports False. *)
Theorem C59_uninstall : forall fs DIR d cwd f, plugin_dir fs DIR d -> plain f ->
  match fs (f :: d) with
  | Some (NFile _) => exists fs', uninstallPlugin DIR cwd f fs = (fs', Ok true) /\ differs_at (f :: d) None fs fs'
  | _ => uninstallPlugin DIR cwd f fs = (fs, Ok false)
  end.
Proof. intros fs DIR d cwd f P. exact (uninstall_plain fs DIR d cwd P f). Qed.
Print Assumptions C59_uninstall.
Theorem C59_install_uninstall : forall fs DIR d cwd p q c, tree_ok fs -> plugin_dir fs DIR d -> leads_to fs cwd p q c ->
  fs (basename p :: d) = None ->
  exists fs1 fs2, installPlugin DIR cwd p fs = (fs1, Ok true) /\ uninstallPlugin DIR cwd (basename p) fs1 = (fs2, Ok true) /\
    same_tree fs fs2 /\ uninstallPlugin DIR cwd (basename p) fs2 = (fs2, Ok false).
Proof. exact install_uninstall. Qed.
Print Assumptions C59_install_uninstall.
(** Any sequence of installations and uninstallations of plain names changes at most files directly in the
    plugin directory, and no directory anywhere. *)
Theorem C59_plain_calls_confined : forall DIR d cwd h fs, tree_ok fs -> plugin_dir fs DIR d -> Forall plain_call h ->
  (forall q, (forall n, q <> n :: d) -> calls DIR cwd h fs q = fs q) /\
  (forall q, calls DIR cwd h fs q = Some NDir <-> fs q = Some NDir) /\ tree_ok (calls DIR cwd h fs) /\ plugin_dir (calls DIR cwd h fs) DIR d.
Proof. intros DIR d cwd h fs. exact (calls_confined DIR d cwd h fs). Qed.
Print Assumptions C59_plain_calls_confined.
(** The path handed out for a plugin's data leads to the file of this name in the plugin directory (or in
    the directory given). *)
Theorem C59_data_path : forall fs DIR d cwd f, plugin_dir fs DIR d -> plain f -> lookup fs cwd (returnDataPath f DIR) = Ok (f :: d).
Proof. exact data_path. Qed.
Print Assumptions C59_data_path.
(** For other names at most one file is removed, but it can be anywhere: the one an absolute name leads to,
    or one beside the plugin directory. *)
Theorem C59_uninstall_any_name : forall fs DIR cwd f,
  (exists q c fs', leads_to fs cwd (join DIR f) q c /\ uninstallPlugin DIR cwd f fs = (fs', Ok true) /\ differs_at q None fs fs') \/
  (forall q c, ~ leads_to fs cwd (join DIR f) q c) /\ uninstallPlugin DIR cwd f fs = (fs, Ok false) \/
  In 0%N (join DIR f) /\ uninstallPlugin DIR cwd f fs = (fs, Err ValueError).
Proof. exact uninstall_any. Qed.
Print Assumptions C59_uninstall_any_name.
Theorem C59_confinement_refuted :
  (forall fs DIR cwd s q c, starts_with_slash s = true -> leads_to fs cwd s q c ->
     exists fs', uninstallPlugin DIR cwd s fs = (fs', Ok true) /\ differs_at q None fs fs') /\
  (forall fs DIR d cwd f c, plugin_dir fs DIR d -> tree_ok fs -> plain f -> fs (f :: tl d) = Some (NFile c) ->
     exists fs', uninstallPlugin DIR cwd (txt "../" ++ f) fs = (fs', Ok true) /\ differs_at (f :: tl d) None fs fs').
Proof. split; [exact uninstall_absolute|exact uninstall_sibling]. Qed.
Print Assumptions C59_confinement_refuted.
(** Installing over an existing plugin replaces it silently; uninstalling does not bring it back. *)
Theorem C59_no_overwrite_refuted : exists fs1 fs2, installPlugin DIR0 [] (txt "/home/old.py") tree0 = (fs1, Ok true) /\
  uninstallPlugin DIR0 [] (txt "old.py") fs1 = (fs2, Ok true) /\
  tree0 [txt "old.py"; txt "plugins"; txt "pz"] = Some (NFile (txt "old")) /\ fs1 [txt "old.py"; txt "plugins"; txt "pz"] = Some (NFile (txt "new")) /\
  fs2 [txt "old.py"; txt "plugins"; txt "pz"] = None.
Proof. exact silent_overwrite. Qed.
Print Assumptions C59_no_overwrite_refuted.
Example C59_nonvacuous : tree_ok tree0 /\ plugin_dir tree0 DIR0 [txt "plugins"; txt "pz"] /\
  leads_to tree0 [txt "plugins"; txt "pz"] (txt "../../home/./my.py") [txt "my.py"; txt "home"] (txt "mine") /\
  tree0 [txt "my.py"; txt "plugins"; txt "pz"] = None /\ plain (txt "my.py") /\ tree0 [txt "core.py"; txt "pz"] = Some (NFile (txt "core")) /\
  exists fs1, uninstallPlugin DIR0 [] (txt "../core.py") tree0 = (fs1, Ok true).
Proof.
  split; [exact tree0_ok|]. split; [exact dir0_ok|]. split; [split; reflexivity|]. split; [reflexivity|].
  split; [repeat split; try discriminate; cbn; intuition discriminate|]. split; [reflexivity|]. destruct escape as (fs1 & H & _). exists fs1. exact H.
Qed.
