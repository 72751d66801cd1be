(** * Properties C51-C55: settings *)
From Verif Require Import PyBase Json_Model Settings_Model Settings_Spec Settings_Proofs Settings_Proofs2 Settings_Proofs3.
Open Scope list_scope.

(** ** C51 *)
(** After any history of setter calls, accepted or not, on any service objects, a new service reads for
    every setting the last accepted value, or what the service read before the history. *)
Theorem C51_settings_persist : forall fs s0 h, files_ok fs -> settings_init fs = Ok s0 ->
  exists s, settings_init (files_after h fs) = Ok s /\
    forall k, get k s = match last_accepted k (rev h) with Some v => v | None => get k s0 end.
Proof. exact settings_persist. Qed.
Print Assumptions C51_settings_persist.
(** An accepted update keeps every other entry of the file (known or not) and their order. *)
Theorem C51_update_touches_one_key : forall fs d k v w s,
  text_ok (custom_file fs) -> contents (custom_file fs) d -> accepted k v = Some w ->
  let '(s', fs', r) := set_property k v s fs in
  r = Ok tt /\ default_file fs' = default_file fs /\ get k s' = v /\ (forall k', k' <> k -> get k' s' = get k' s) /\
  exists d', contents (custom_file fs') d' /\ (forall name, name <> key_name k -> dget text_eqb name d' = dget text_eqb name d) /\
    map fst d' = map fst d ++ (if existsb (text_eqb (key_name k)) (map fst d) then [] else [key_name k]).
Proof. exact update_frame. Qed.
Print Assumptions C51_update_touches_one_key.
Example C51_nonvacuous : files_ok fs0 /\ settings_init fs0 = Ok service0 /\
  exists s, settings_init (files_after [(service0, KPrecision, p67); (service0, KVerbose, VOther 1); (service0, KLevel, VLevel DEBUG);
                                        (service0, KLevel, VLevel INFO)] fs0) = Ok s /\
            get KPrecision s = p67 /\ get KVerbose s = VJson (JBool true) /\ get KLevel s = VLevel INFO.
Proof.
  split; [exact fs0_ok|]. split; [exact fs0_init|]. eexists. split; [vm_compute; reflexivity|]. repeat split.
Qed.

(** ** C52 *)
(** A rejected value: an exception, unchanged files, but the object holds the rejected value. *)
Theorem C52_rejected_value : forall k v s fs, accepted k v = None ->
  let '(s', fs', r) := set_property k v s fs in
  fs' = fs /\ get k s' = v /\ (forall k', k' <> k -> get k' s' = get k' s) /\ exists e, r = Err e.
Proof. exact rejected_value. Qed.
Print Assumptions C52_rejected_value.
(** On a readable file the call succeeds exactly for the accepted values, and raises IndexError exactly for
    precision tuples that are too short. *)
Theorem C52_setter_outcome : forall k v s fs d, contents (custom_file fs) d -> text_ok (custom_file fs) ->
  snd (set_property k v s fs) =
  match accepted k v with
  | Some _ => Ok tt
  | None => Err (if match k, v with KPrecision, VTuple [] => true | KPrecision, VTuple [x] => is_int x | _, _ => false end
                 then IndexError else InvalidSettingException)
  end.
Proof. exact setter_outcome. Qed.
Print Assumptions C52_setter_outcome.
(** Memory and file disagree after a rejected call. *)
Theorem C52_atomicity_refuted : let '(s', fs', r) := set_property KVerbose (VOther 0) service0 fs0 in
  r = Err InvalidSettingException /\ get KVerbose s' = VOther 0 /\ exists s1, settings_init fs' = Ok s1 /\ get KVerbose s1 = VJson (JBool true).
Proof. exact rejected0. Qed.
Print Assumptions C52_atomicity_refuted.

(** ** C53 *)
(** After a crash at any point of any update: the old file; or the complete new one; or a file that no
    service can be created from and that no further setter call repairs or changes. *)
Theorem C53_crash_outcomes : forall fs s0 k v s new,
  files_ok fs -> settings_init fs = Ok s0 -> after_crash k v (custom_file fs) new ->
  let fs' := mkFiles (default_file fs) new in
  new = custom_file fs \/
  fs' = snd (fst (set_property k v s fs)) /\ snd (set_property k v s fs) = Ok tt \/
  (exists p, new = Some p) /\
  forall h, settings_init (files_after h fs') = Err JSONDecodeError /\ custom_file (files_after h fs') = new /\
    forall k' v' s', snd (set_property k' v' s' (files_after h fs')) = Err InvalidSettingException.
Proof. exact crash_outcomes. Qed.
Print Assumptions C53_crash_outcomes.
(** The last case happens, so the settings do not survive every crash. *)
Theorem C53_crash_safety_refuted : exists new, after_crash KVerbose (VJson (JBool false)) (custom_file fs0) new /\
  settings_init (mkFiles (default_file fs0) new) = Err JSONDecodeError /\
  forall h, settings_init (files_after h (mkFiles (default_file fs0) new)) = Err JSONDecodeError.
Proof. exact crash0. Qed.
Print Assumptions C53_crash_safety_refuted.

(** ** C54 *)
(** Every interleaving of two updates of different settings ends with an undecodable file or with a file
    in which at least one update is made and everything else is as before; a process that fails leaves the
    other's update. *)
Theorem C54_interleavings : forall f d k1 v1 t1 d1 k2 v2 t2 d2, two_updates f d k1 v1 t1 d1 k2 v2 t2 d2 ->
  forall sched p1 p2 g, interleave k1 v1 k2 v2 sched (PStart, PStart, f) = (p1, p2, g) -> finished p1 -> finished p2 ->
    (exists t, g = Some t /\ (unreadable t \/ exists d', contents g d' /\ merges k1 k2 d d1 d2 d')) /\
    (p1 = PDone /\ p2 = PDone \/
     p1 = PDone /\ p2 = PFailed InvalidSettingException /\ g = Some t1 \/
     p1 = PFailed InvalidSettingException /\ p2 = PDone /\ g = Some t2).
Proof. exact interleavings_spec. Qed.
Print Assumptions C54_interleavings.
(** One after the other keeps both. *)
Theorem C54_sequential_keeps_both : forall f d k1 v1 t1 d1 k2 v2 t2 d2, two_updates f d k1 v1 t1 d1 k2 v2 t2 d2 ->
  exists t d', interleave k1 v1 k2 v2 [true; true; true; false; false; false] (PStart, PStart, f) = (PDone, PDone, Some t) /\
    contents (Some t) d' /\ dget text_eqb (key_name k1) d' = dget text_eqb (key_name k1) d1 /\
    dget text_eqb (key_name k2) d' = dget text_eqb (key_name k2) d2.
Proof. exact sequential_spec. Qed.
Print Assumptions C54_sequential_keeps_both.
(** Hazards, for every pair of updates: a schedule that loses the first one silently; one in which the
    second process fails although nothing is wrong; and, if the second text is shorter, one that leaves an
    undecodable file. *)
Theorem C54_isolation_refuted : forall f d k1 v1 t1 d1 k2 v2 t2 d2, two_updates f d k1 v1 t1 d1 k2 v2 t2 d2 ->
  (exists sched, interleave k1 v1 k2 v2 sched (PStart, PStart, f) = (PDone, PDone, Some t2) /\
                 dget text_eqb (key_name k1) d2 = dget text_eqb (key_name k1) d) /\
  (exists sched, interleave k1 v1 k2 v2 sched (PStart, PStart, f) = (PDone, PFailed InvalidSettingException, Some t1)) /\
  ((List.length t2 < List.length t1)%nat ->
   exists sched t, interleave k1 v1 k2 v2 sched (PStart, PStart, f) = (PDone, PDone, Some t) /\ unreadable t).
Proof. exact hazards_spec. Qed.
Print Assumptions C54_isolation_refuted.
(** If the write were atomic, only lost updates would remain. *)
Theorem C54_atomic_writes : forall f d k1 v1 t1 d1 k2 v2 t2 d2, two_updates f d k1 v1 t1 d1 k2 v2 t2 d2 ->
  forall sched p1 p2 g, interleave_atomic k1 v1 k2 v2 sched (PStart, PStart, f) = (p1, p2, g) -> finished p1 -> finished p2 ->
    p1 = PDone /\ p2 = PDone /\ exists d', g <> None /\ contents g d' /\ merges k1 k2 d d1 d2 d'.
Proof. exact atomic_spec. Qed.
Print Assumptions C54_atomic_writes.
Example C54_nonvacuous : exists t1 d1 t2 d2,
  two_updates (custom_file fs0) [] KPrecision p67 t1 d1 KVerbose (VJson (JBool false)) t2 d2 /\ (List.length t2 < List.length t1)%nat.
Proof. exact two0. Qed.

(** ** C55 *)
(** Asking for a setting after any history of valid sets and restarts gives the same answer with both
    services, if the setting was set in the history or both began with the same value. *)
Theorem C55_ram_and_json_agree : forall fs s0 sr h k, files_ok fs -> settings_init fs = Ok s0 -> Forall valid_op h ->
  Exists (sets k) h \/ get k s0 = get k sr -> json_answer h k s0 fs = Ok (ram_answer h k sr).
Proof. exact ram_json_spec. Qed.
Print Assumptions C55_ram_and_json_agree.
(** Without that condition they differ: the built-in defaults are not the shipped ones. *)
Theorem C55_initial_values_refuted : settings_init fs0 = Ok service0 /\
  get KLevel service0 <> get KLevel ram_default /\ get KVerbose service0 <> get KVerbose ram_default /\
  get KPrecision service0 <> get KPrecision ram_default.
Proof. split; [exact fs0_init|]. split; [discriminate|]. split; discriminate. Qed.
Print Assumptions C55_initial_values_refuted.
Example C55_nonvacuous :
  Forall valid_op [SSet KVerbose (VJson (JBool false)); SRestart; SSet KPrecision p67] /\
  json_answer [SSet KVerbose (VJson (JBool false)); SRestart; SSet KPrecision p67] KVerbose service0 fs0 = Ok (VJson (JBool false)).
Proof. split; [repeat constructor|]. vm_compute. reflexivity. Qed.
