(** * Settings: the statements in the vocabulary of Settings_Spec *)
From Verif Require Import PyBase Json_Model Json_Proofs Json_Proofs2 JsonText_Spec JsonText_Proofs Settings_Model Settings_Spec Settings_Proofs Settings_Proofs2.
Open Scope list_scope.

Lemma update_inv f d k v t d' : text_ok f -> contents f d -> createOrUpdate f k v = Ok t -> contents (Some t) d' ->
  exists j, value_json k v = Ok j /\ d' = dset text_eqb (key_name k) j d /\ t = dumps (JObj d').
Proof.
  intros T C U C'. pose proof (good_of _ _ T C) as G. rewrite (update_good _ _ _ _ G) in U. pose proof (value_accept k v) as VA.
  destruct (value_json k v) as [j|e]; [|discriminate]. exists j. split; [reflexivity|]. injection U as U. subst t.
  pose proof (proj1 (good_dumps _ (dset_canonical k j d (proj2 G) (proj1 VA)))) as L. apply contents_holds in C'. cbn [holds] in L, C'. rewrite L in C'.
  injection C' as C'. subst d'. split; reflexivity.
Qed.

Theorem interleavings_spec f d k1 v1 t1 d1 k2 v2 t2 d2 : two_updates f d k1 v1 t1 d1 k2 v2 t2 d2 ->
  forall sched p1 p2 g, interleave k1 v1 k2 v2 sched (PStart, PStart, f) = (p1, p2, g) -> finished p1 -> finished p2 ->
    (exists t, g = Some t /\ (unreadable t \/ exists d', contents g d' /\ merges k1 k2 d d1 d2 d')) /\
    (p1 = PDone /\ p2 = PDone \/
     p1 = PDone /\ p2 = PFailed InvalidSettingException /\ g = Some t1 \/
     p1 = PFailed InvalidSettingException /\ p2 = PDone /\ g = Some t2).
Proof.
  intros (T & C & N & U1 & C1 & U2 & C2). destruct (update_inv _ _ _ _ _ _ T C U1 C1) as (j1 & V1 & -> & ->).
  destruct (update_inv _ _ _ _ _ _ T C U2 C2) as (j2 & V2 & -> & ->).
  intros sched p1 p2 g E F1 F2.
  destruct (interleavings k1 k2 v1 v2 j1 j2 d f N (good_of _ _ T C) V1 V2 sched p1 p2 g E F1 F2) as [(t & -> & R) Q]. split; [|exact Q].
  exists t. split; [reflexivity|]. destruct R as [R|(d' & L & M)]; [left; apply unreadable_iff; exact R|right; exists d'; split; [apply contents_holds; exact L|exact M]].
Qed.
Theorem atomic_spec f d k1 v1 t1 d1 k2 v2 t2 d2 : two_updates f d k1 v1 t1 d1 k2 v2 t2 d2 ->
  forall sched p1 p2 g, interleave_atomic k1 v1 k2 v2 sched (PStart, PStart, f) = (p1, p2, g) -> finished p1 -> finished p2 ->
    p1 = PDone /\ p2 = PDone /\ exists d', g <> None /\ contents g d' /\ merges k1 k2 d d1 d2 d'.
Proof.
  intros (T & C & N & U1 & C1 & U2 & C2). destruct (update_inv _ _ _ _ _ _ T C U1 C1) as (j1 & V1 & -> & ->).
  destruct (update_inv _ _ _ _ _ _ T C U2 C2) as (j2 & V2 & -> & ->).
  intros sched p1 p2 g E F1 F2.
  destruct (atomic_interleavings k1 k2 v1 v2 j1 j2 d f N (good_of _ _ T C) V1 V2 sched p1 p2 g E F1 F2) as (-> & -> & t & d' & -> & L & M).
  split; [reflexivity|]. split; [reflexivity|]. exists d'. split; [discriminate|]. split; [apply contents_holds; exact L|exact M].
Qed.
Theorem sequential_spec f d k1 v1 t1 d1 k2 v2 t2 d2 : two_updates f d k1 v1 t1 d1 k2 v2 t2 d2 ->
  exists t d', interleave k1 v1 k2 v2 [true; true; true; false; false; false] (PStart, PStart, f) = (PDone, PDone, Some t) /\
    contents (Some t) d' /\ dget text_eqb (key_name k1) d' = dget text_eqb (key_name k1) d1 /\
    dget text_eqb (key_name k2) d' = dget text_eqb (key_name k2) d2.
Proof.
  intros (T & C & N & U1 & C1 & U2 & C2). destruct (update_inv _ _ _ _ _ _ T C U1 C1) as (j1 & V1 & -> & ->).
  destruct (update_inv _ _ _ _ _ _ T C U2 C2) as (j2 & V2 & -> & ->).
  destruct (run_sequential k1 k2 v1 v2 j1 j2 d f N (good_of _ _ T C) V1 V2) as (t & d' & E & L & M). exists t, d'. split; [exact E|].
  split; [apply contents_holds; exact L|exact M].
Qed.
Theorem hazards_spec f d k1 v1 t1 d1 k2 v2 t2 d2 : two_updates f d k1 v1 t1 d1 k2 v2 t2 d2 ->
  (exists sched, interleave k1 v1 k2 v2 sched (PStart, PStart, f) = (PDone, PDone, Some t2) /\
                 dget text_eqb (key_name k1) d2 = dget text_eqb (key_name k1) d) /\
  (exists sched, interleave k1 v1 k2 v2 sched (PStart, PStart, f) = (PDone, PFailed InvalidSettingException, Some t1)) /\
  ((List.length t2 < List.length t1)%nat ->
   exists sched t, interleave k1 v1 k2 v2 sched (PStart, PStart, f) = (PDone, PDone, Some t) /\ unreadable t).
Proof.
  intros (T & C & N & U1 & C1 & U2 & C2). destruct (update_inv _ _ _ _ _ _ T C U1 C1) as (j1 & V1 & -> & ->).
  destruct (update_inv _ _ _ _ _ _ T C U2 C2) as (j2 & V2 & -> & ->). pose proof (good_of _ _ T C) as G. split; [|split].
  - eexists. split; [exact (run_lost k1 k2 v1 v2 j1 j2 d f G V1 V2)|]. apply (dget_dset_other text_eqb text_eqb_eq).
    intro E. apply key_name_inj in E. congruence.
  - eexists. exact (run_spurious k1 k2 v1 v2 j1 d f G V1).
  - intro L. destruct (run_mixed k1 k2 v1 v2 j1 j2 d f G V1 V2 L) as (t & E & U). eexists _, t. split; [exact E|apply unreadable_iff; exact U].
Qed.

Theorem ram_json_spec fs s0 sr h k : files_ok fs -> settings_init fs = Ok s0 -> Forall valid_op h ->
  Exists (sets k) h \/ get k s0 = get k sr -> json_answer h k s0 fs = Ok (ram_answer h k sr).
Proof.
  intros FO H V K. destruct (good_of_init fs s0 FO H) as (dd & dc & GD & GC). apply (ram_json h k fs s0 sr dd dc); assumption.
Qed.

(** ** Concrete cases *)
Definition fs0 : files := mkFiles (Some shipped_default) None.
Definition service0 : service := mkService (VContainer ROUNDING_CONTAINER) (VAlgorithm SIMPLE_ARGUMENT) (VEstimator SUMMATION_ESTIMATOR)
  (VLevel WARNING) (VJson (JBool true)) (VTuple [VJson (JInt 5); VJson (JInt 5)]).
Lemma unicode_ascii t : forallb (fun c => N.ltb c 128) t = true -> Forall unicode t.
Proof. intro H. apply Forall_forall. intros c HI. rewrite forallb_forall in H. apply H in HI. apply N.ltb_lt in HI. left. lia. Qed.
Lemma fs0_ok : files_ok fs0.
Proof. split; [|exact I]. apply unicode_ascii. vm_compute. reflexivity. Qed.
Lemma fs0_init : settings_init fs0 = Ok service0.
Proof. vm_compute. reflexivity. Qed.
Definition p67 : pyval := VTuple [VJson (JInt 6); VJson (JInt 7)].
Lemma two0 : exists t1 d1 t2 d2, two_updates (custom_file fs0) [] KPrecision p67 t1 d1 KVerbose (VJson (JBool false)) t2 d2 /\
  (List.length t2 < List.length t1)%nat.
Proof.
  eexists. eexists. eexists. eexists. split; [|shelve].
  split; [exact I|]. split; [reflexivity|]. split; [discriminate|]. split; [vm_compute; reflexivity|]. split; [apply contents_holds; vm_compute; reflexivity|].
  split; [vm_compute; reflexivity|]. apply contents_holds. vm_compute. reflexivity.
  Unshelve. vm_compute. lia.
Qed.
Lemma crash0 : exists new, after_crash KVerbose (VJson (JBool false)) (custom_file fs0) new /\
  settings_init (mkFiles (default_file fs0) new) = Err JSONDecodeError /\
  forall h, settings_init (files_after h (mkFiles (default_file fs0) new)) = Err JSONDecodeError.
Proof.
  exists (Some [123%N]). assert (A : after_crash KVerbose (VJson (JBool false)) (custom_file fs0) (Some [123%N])).
  { right. eexists. exists [123%N]. eexists. split; [vm_compute; reflexivity|]. split; [reflexivity|reflexivity]. }
  split; [exact A|]. split; [vm_compute; reflexivity|].
  destruct (crash_outcomes fs0 service0 _ _ service0 _ fs0_ok fs0_init A) as [C|[[C _]|[_ C]]].
  - discriminate C.
  - exfalso. apply (f_equal custom_file) in C. vm_compute in C. discriminate C.
  - intro h. apply C.
Qed.
Lemma rejected0 : let '(s', fs', r) := set_property KVerbose (VOther 0) service0 fs0 in
  r = Err InvalidSettingException /\ get KVerbose s' = VOther 0 /\ exists s1, settings_init fs' = Ok s1 /\ get KVerbose s1 = VJson (JBool true).
Proof.
  destruct (set_property KVerbose (VOther 0) service0 fs0) as [[s' fs'] r] eqn:E. vm_compute in E. injection E as <- <- <-.
  split; [reflexivity|]. split; [reflexivity|]. eexists. split; [vm_compute; reflexivity|reflexivity].
Qed.
