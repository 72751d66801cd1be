(** * Settings: proofs *)
From Verif Require Import PyBase Json_Model Json_Proofs Json_Proofs2 JsonText_Spec JsonText_Proofs Settings_Model Settings_Spec.
Open Scope list_scope.

Lemma key_name_inj k k' : key_name k = key_name k' -> k = k'.
Proof. destruct k, k'; intro H; try reflexivity; vm_compute in H; discriminate. Qed.
Lemma key_eqb_eq a b : key_eqb a b = true <-> a = b.
Proof. destruct a, b; cbn; split; intro H; congruence. Qed.
Lemma key_wf k : wf_chars (key_name k).
Proof. destruct k; vm_compute; repeat split. Qed.

Lemma get_put_same k v s : get k (put k v s) = v.
Proof. destruct k; reflexivity. Qed.
Lemma get_put_other k k' v s : k <> k' -> get k' (put k v s) = get k' s.
Proof. destruct k, k'; intro H; try reflexivity; contradiction. Qed.
Lemma service_ext s s' : (forall k, get k s = get k s') -> s = s'.
Proof.
  intro H. destruct s, s'. pose proof (H KContainer). pose proof (H KAlgorithm). pose proof (H KEstimator).
  pose proof (H KLevel). pose proof (H KVerbose). pose proof (H KPrecision). cbn in *. congruence.
Qed.

Lemma unicode_valid c : unicode c -> valid_char c.
Proof.
  unfold unicode, valid_char, is_high, is_low. intro H. split; [lia|].
  split; apply andb_false_iff; rewrite !N.leb_gt; lia.
Qed.
Lemma unicode_text t : Forall unicode t -> Forall valid_char t.
Proof. apply Forall_impl. exact unicode_valid. Qed.

(** ** Loading *)
Definition holds (f : file) (d : list (text * json)) : Prop := match f with None => d = [] | Some t => loads t = Ok (JObj d) end.
Lemma contents_holds f d : contents f d <-> holds f d.
Proof. destruct f as [t|]; cbn [contents holds]; [symmetry; apply loads_document|tauto]. Qed.
Lemma unreadable_iff t : unreadable t <-> loads t = Err JSONDecodeError.
Proof. symmetry. apply loads_rejects. Qed.
Definition good (f : file) (d : list (text * json)) : Prop := holds f d /\ canonical_dict d.
Lemma good_of f d : text_ok f -> contents f d -> good f d.
Proof.
  intros T C. apply contents_holds in C. split; [exact C|]. destruct f as [t|]; cbn in *.
  - apply canonical_obj. exact (loads_canonical t _ (unicode_text t T) C).
  - subst d. split; constructor.
Qed.

Lemma fold_load {A} (P : text -> bool) (g : json -> A) d : NoDup (map fst d) -> forall (s : list (text * A)) k,
  dget text_eqb k (fold_left (fun s kv => if P (fst kv) then dset text_eqb (fst kv) (g (snd kv)) s else s) d s) =
  if P k then match dget text_eqb k d with Some v => Some (g v) | None => dget text_eqb k s end else dget text_eqb k s.
Proof.
  induction d as [|[k' v] d IH]; intros N s k; cbn [fold_left fst snd dget]; [destruct (P k); reflexivity|].
  cbn in N. inversion N as [|? ? N1 N2]; subst. rewrite (IH N2). destruct (P k) eqn:Pk.
  - destruct (text_eqb k k') eqn:E.
    + apply text_eqb_eq in E. subst k'. apply (dget_None_notin text_eqb text_eqb_eq) in N1. rewrite N1, Pk.
      apply (dget_dset_same text_eqb text_eqb_eq).
    + destruct (dget text_eqb k d); [reflexivity|]. destruct (P k'); [|reflexivity].
      apply (dget_dset_other text_eqb text_eqb_eq). intro C. subst k'. rewrite (proj2 (text_eqb_eq k k) eq_refl) in E. discriminate.
  - destruct (P k') eqn:Pk'; [|reflexivity]. apply (dget_dset_other text_eqb text_eqb_eq). intro C. subst. congruence.
Qed.

(** What the two files together say about a setting. *)
Definition over (dc dd : list (text * json)) (k : key) : option json :=
  match dget text_eqb (key_name k) dc with Some v => Some v | None => dget text_eqb (key_name k) dd end.
(** How it is decoded. *)
Definition decode (k : key) (j : option json) : option pyval :=
  match j with
  | None => None
  | Some j =>
      match k with
      | KContainer => option_map VContainer (find_container j)
      | KAlgorithm => option_map VAlgorithm (find_algorithm j)
      | KEstimator => option_map VEstimator (find_estimator j)
      | KLevel => option_map VLevel (find_level (loaded j))
      | KVerbose => init_verbose (Some (loaded j))
      | KPrecision => match init_precision (Some (loaded j)) with Ok o => o | Err _ => None end
      end
  end.

Lemma load_core_good f d s : good f d -> exists s', load_core f s = Ok s' /\
  forall k, is_core k = true -> dget text_eqb k s' = match dget text_eqb k d with Some v => Some v | None => dget text_eqb k s end.
Proof.
  intros [C [N F]]. destruct f as [t|]; cbn [holds load_core load_settings] in C |- *.
  - rewrite C. cbn [bind]. eexists. split; [reflexivity|]. intros k K. pose proof (fold_load is_core (fun j => j) d N s k) as H.
    rewrite K in H. exact H.
  - subst d. exists s. split; [reflexivity|]. reflexivity.
Qed.
Lemma load_settings_good f d s : good f d -> exists s', load_settings f s = Ok s' /\
  forall k, is_setting k = true -> dget text_eqb k s' = match dget text_eqb k d with Some v => Some (loaded v) | None => dget text_eqb k s end.
Proof.
  intros [C [N F]]. destruct f as [t|]; cbn [holds load_core load_settings] in C |- *.
  - rewrite C. cbn [bind]. eexists. split; [reflexivity|]. intros k K. pose proof (fold_load is_setting loaded d N s k) as H.
    rewrite K in H. exact H.
  - subst d. exists s. split; [reflexivity|]. reflexivity.
Qed.

Definition is_core_key (k : key) : bool := match k with KContainer | KAlgorithm | KEstimator => true | _ => false end.
Lemma is_core_name k : is_core (key_name k) = is_core_key k.
Proof. destruct k; vm_compute; reflexivity. Qed.
Lemma is_setting_name k : is_setting (key_name k) = negb (is_core_key k).
Proof. destruct k; vm_compute; reflexivity. Qed.

Lemma index_eq {A} k (d : list (text * A)) : index k d = match dget text_eqb k d with Some v => Ok v | None => Err KeyError end.
Proof. reflexivity. Qed.

Lemma init_iff fs dd dc s : good (default_file fs) dd -> good (custom_file fs) dc ->
  (settings_init fs = Ok s <-> forall k, decode k (over dc dd k) = Some (get k s)).
Proof.
  intros GD GC. unfold settings_init, core_init.
  destruct (load_core_good _ _ [] GD) as (s1 & -> & H1). cbn [bind].
  destruct (load_core_good _ _ s1 GC) as (s2 & -> & H2). cbn [bind].
  destruct (load_settings_good _ _ [] GD) as (s3 & E3 & H3).
  destruct (load_settings_good _ _ s3 GC) as (s4 & E4 & H4).
  assert (HC : forall k, is_core_key k = true -> dget text_eqb (key_name k) s2 = over dc dd k).
  { intros k K. unfold over. rewrite H2 by (rewrite is_core_name; exact K). destruct (dget text_eqb (key_name k) dc); [reflexivity|].
    rewrite H1 by (rewrite is_core_name; exact K). destruct (dget text_eqb (key_name k) dd); reflexivity. }
  assert (HS : forall k, is_core_key k = false -> dget text_eqb (key_name k) s4 = option_map loaded (over dc dd k)).
  { intros k K. unfold over. rewrite H4 by (rewrite is_setting_name, K; reflexivity).
    destruct (dget text_eqb (key_name k) dc); [reflexivity|].
    rewrite H3 by (rewrite is_setting_name, K; reflexivity). destruct (dget text_eqb (key_name k) dd); reflexivity. }
  rewrite !index_eq, !HC by reflexivity. rewrite E3. cbn [bind]. rewrite E4. cbn [bind]. rewrite index_eq, !HS by reflexivity. clear.
  set (g := over dc dd). clearbody g. split.
  - intro H. destruct (g KContainer) as [jc|] eqn:EC; [|discriminate H]. cbn [bind] in H.
    destruct (g KAlgorithm) as [ja|] eqn:EA; [|discriminate H]. cbn [bind] in H.
    destruct (g KEstimator) as [je|] eqn:EE; [|discriminate H]. cbn [bind] in H.
    destruct (find_container jc) as [c|] eqn:FC; [|discriminate H].
    destruct (find_algorithm ja) as [a|] eqn:FA; [|discriminate H].
    destruct (find_estimator je) as [e|] eqn:FE; [|discriminate H]. cbn [bind fst snd] in H.
    destruct (g KLevel) as [jl|] eqn:EL; [|discriminate H]. cbn [bind option_map] in H.
    destruct (init_precision (option_map loaded (g KPrecision))) as [pr|] eqn:FP; [|discriminate H]. cbn [bind] in H.
    destruct (find_level (loaded jl)) as [l|] eqn:FL; [|discriminate H].
    destruct (init_verbose (option_map loaded (g KVerbose))) as [b|] eqn:FV; [|discriminate H].
    destruct pr as [pr|]; [|discriminate H]. injection H as <-.
    destruct (g KVerbose) as [jv|] eqn:EV; [|discriminate FV]. destruct (g KPrecision) as [jp|] eqn:EP; [|discriminate FP].
    cbn [option_map] in FP, FV.
    intro k. destruct k; cbn [get s_container s_algorithm s_estimator s_level s_verbose s_precision];
      rewrite ?EC, ?EA, ?EE, ?EL, ?EV, ?EP; cbn [decode]; rewrite ?FC, ?FA, ?FE, ?FL, ?FV, ?FP; reflexivity.
  - intro H. pose proof (H KContainer) as HC. pose proof (H KAlgorithm) as HA. pose proof (H KEstimator) as HE.
    pose proof (H KLevel) as HL. pose proof (H KVerbose) as HV. pose proof (H KPrecision) as HP. clear H.
    destruct s as [sc sa se sl sv sp]. cbn [get s_container s_algorithm s_estimator s_level s_verbose s_precision] in *.
    destruct (g KContainer) as [jc|]; [|discriminate HC]. destruct (g KAlgorithm) as [ja|]; [|discriminate HA].
    destruct (g KEstimator) as [je|]; [|discriminate HE]. destruct (g KLevel) as [jl|]; [|discriminate HL].
    destruct (g KVerbose) as [jv|]; [|discriminate HV]. destruct (g KPrecision) as [jp|]; [|discriminate HP].
    cbn [decode] in *. cbn [bind option_map].
    destruct (find_container jc); [|discriminate HC]. destruct (find_algorithm ja); [|discriminate HA].
    destruct (find_estimator je); [|discriminate HE]. cbn [bind option_map fst snd] in *.
    destruct (find_level (loaded jl)); [|discriminate HL]. rewrite HV.
    destruct (init_precision (Some (loaded jp))) as [o|]; [|discriminate HP]. subst o. cbn [bind option_map] in *. congruence.
Qed.

(** ** Updating *)
Lemma as_int_eq x : as_int x = if is_int x then match x with VJson j => Some j | _ => None end else None.
Proof. destruct x as [j| | | | | |]; try reflexivity. destruct j; reflexivity. Qed.
Lemma is_int_inv x : is_int x = true -> exists j, x = VJson j /\ canonical j.
Proof. destruct x as [j| | | | | |]; try discriminate. destruct j; try discriminate; intros _; eexists; split; [reflexivity|exact I|reflexivity|exact I]. Qed.

Lemma value_accept k v :
  match value_json k v with
  | Ok j => canonical j /\ exists w, accepted k v = Some w /\ decode k (Some j) = Some w
  | Err e => accepted k v = None
  end.
Proof.
  destruct k.
  - destruct v; try reflexivity. destruct c; (split; [vm_compute; repeat split|eexists; split; [reflexivity|vm_compute; reflexivity]]).
  - destruct v; try reflexivity. destruct a; (split; [vm_compute; repeat split|eexists; split; [reflexivity|vm_compute; reflexivity]]).
  - destruct v; try reflexivity. destruct e; (split; [vm_compute; repeat split|eexists; split; [reflexivity|vm_compute; reflexivity]]).
  - destruct v; try reflexivity. destruct l; (split; [vm_compute; repeat split|eexists; split; [reflexivity|vm_compute; reflexivity]]).
  - destruct v; try reflexivity. destruct j; try reflexivity. split; [exact I|]. eexists. split; [reflexivity|]. reflexivity.
  - destruct v; try reflexivity. cbn [value_json setting_json accepted]. destruct l as [|x l]; [reflexivity|]. rewrite as_int_eq.
    destruct (is_int x) eqn:IX.
    + destruct (is_int_inv x IX) as (jx & -> & CX). destruct l as [|y l]; [reflexivity|]. rewrite as_int_eq.
      destruct (is_int y) eqn:IY; [|reflexivity]. destruct (is_int_inv y IY) as (jy & -> & CY).
      split; [cbn; auto|]. eexists. split; reflexivity.
    + destruct l; [reflexivity|]. reflexivity.
Qed.

Lemma dset_canonical k j d : canonical_dict d -> canonical j -> canonical_dict (dset text_eqb (key_name k) j d).
Proof.
  intros [N F] C. split; [apply (dset_NoDup text_eqb text_eqb_eq); exact N|].
  apply Forall_forall. intros p HI. rewrite Forall_forall in F. destruct (dset_in _ _ _ _ HI) as [H|[->|[H1 H2]]].
  - exact (F p H).
  - split; [apply key_wf|exact C].
  - rewrite H1. split; [|exact C]. apply in_map_iff in H2 as (p' & E & HI'). rewrite <- E. exact (proj1 (F p' HI')).
Qed.
Lemma good_dumps d : canonical_dict d -> good (Some (dumps (JObj d))) d.
Proof. intro C. split; [|exact C]. cbn [holds]. apply loads_dumps. apply canonical_obj. exact C. Qed.

Lemma update_good f d k v : good f d ->
  createOrUpdate f k v = match value_json k v with Ok j => Ok (dumps (JObj (dset text_eqb (key_name k) j d))) | Err e => Err e end.
Proof.
  intros [C _]. unfold createOrUpdate, read_current. destruct f as [t|]; cbn in C.
  - rewrite C. cbn [bind]. destruct (value_json k v); reflexivity.
  - subst d. cbn [bind]. destruct (value_json k v); reflexivity.
Qed.

Lemma set_good k v s fs d : good (custom_file fs) d ->
  exists d', good (custom_file (snd (fst (set_property k v s fs)))) d' /\
    d' = match value_json k v with Ok j => dset text_eqb (key_name k) j d | Err _ => d end.
Proof.
  intro G. unfold set_property. rewrite (update_good _ _ k v G). pose proof (value_accept k v) as VA.
  destruct (value_json k v) as [j|e]; cbn [fst snd custom_file].
  - eexists. split; [|reflexivity]. apply good_dumps. apply dset_canonical; [exact (proj2 G)|tauto].
  - eexists. split; [|reflexivity]. exact G.
Qed.
Lemma set_default k v s fs : default_file (snd (fst (set_property k v s fs))) = default_file fs.
Proof. unfold set_property. destruct (createOrUpdate _ _ _); reflexivity. Qed.

Lemma good_of_init fs s : files_ok fs -> settings_init fs = Ok s ->
  exists dd dc, good (default_file fs) dd /\ good (custom_file fs) dc.
Proof.
  intros [T1 T2] H.
  assert (R : forall f, text_ok f -> (exists s s', load_core f s = Ok s') -> exists d, good f d).
  { intros f T (s1 & s2 & L). destruct f as [t|].
    - cbn in L. destruct (loads t) as [j|] eqn:E; [|discriminate]. cbn in L. destruct j; try discriminate.
      exists d. apply good_of; [exact T|apply contents_holds; exact E].
    - exists []. apply good_of; [exact I|reflexivity]. }
  unfold settings_init, core_init in H.
  destruct (load_core (default_file fs) []) as [s1|] eqn:E1; [|discriminate]. cbn [bind] in H.
  destruct (load_core (custom_file fs) s1) as [s2|] eqn:E2; [|discriminate].
  destruct (R _ T1 (ex_intro _ _ (ex_intro _ _ E1))) as [dd Hd]. destruct (R _ T2 (ex_intro _ _ (ex_intro _ _ E2))) as [dc Hc].
  exists dd, dc. auto.
Qed.

Lemma over_dset k j dc dd k' : over (dset text_eqb (key_name k) j dc) dd k' = if key_eqb k k' then Some j else over dc dd k'.
Proof.
  unfold over. destruct (key_eqb k k') eqn:E.
  - apply key_eqb_eq in E. subst k'. rewrite (dget_dset_same text_eqb text_eqb_eq). reflexivity.
  - rewrite (dget_dset_other text_eqb text_eqb_eq); [reflexivity|]. intro C. apply key_name_inj in C. subst k'.
    rewrite (proj2 (key_eqb_eq k k) eq_refl) in E. discriminate.
Qed.

Definition updated (k : key) (v : pyval) (s : service) : service :=
  match accepted k v with Some w => put k w s | None => s end.

Lemma init_set fs dd dc s k v s1 : good (default_file fs) dd -> good (custom_file fs) dc -> settings_init fs = Ok s ->
  settings_init (snd (fst (set_property k v s1 fs))) = Ok (updated k v s).
Proof.
  intros GD GC H. destruct (set_good k v s1 fs dc GC) as (d' & G' & ->).
  pose proof (proj1 (init_iff fs dd dc s GD GC) H) as H0. clear H. rename H0 into H. eapply (init_iff _ dd _ (updated k v s)); [rewrite set_default; exact GD|exact G'|].
  intro k'. pose proof (value_accept k v) as VA. unfold updated. destruct (value_json k v) as [j|e].
  - destruct VA as (Cj & w & -> & D). rewrite over_dset. destruct (key_eqb k k') eqn:E.
    + apply key_eqb_eq in E. subst k'. rewrite get_put_same. exact D.
    + rewrite get_put_other; [apply H|]. intro C. subst k'. rewrite (proj2 (key_eqb_eq k k) eq_refl) in E. discriminate.
  - rewrite VA. apply H.
Qed.

Lemma history_good h : forall fs dd dc s, good (default_file fs) dd -> good (custom_file fs) dc -> settings_init fs = Ok s ->
  settings_init (files_after h fs) = Ok (fold_left (fun s c => updated (snd (fst c)) (snd c) s) h s).
Proof.
  induction h as [|[[s1 k] v] h IH]; intros fs dd dc s GD GC H; [exact H|].
  cbn [files_after fold_left fst snd]. destruct (set_good k v s1 fs dc GC) as (d' & G' & _).
  apply (IH _ dd d' (updated k v s)); [rewrite set_default; exact GD|exact G'|].
  apply (init_set fs dd dc); assumption.
Qed.

Lemma last_accepted_fold k h : forall s,
  get k (fold_left (fun s (c : call) => updated (snd (fst c)) (snd c) s) h s) =
  match last_accepted k (rev h) with Some v => v | None => get k s end.
Proof.
  induction h as [|c h IH] using rev_ind; intro s; [reflexivity|].
  rewrite fold_left_app, rev_unit. cbn [fold_left]. destruct c as [[s1 k'] v]. cbn [last_accepted fst snd].
  unfold updated at 1. destruct (key_eqb k' k) eqn:E.
  - apply key_eqb_eq in E. subst k'. destruct (accepted k v) as [w|]; [apply get_put_same|apply IH].
  - destruct (accepted k' v) as [w|]; [|apply IH]. rewrite get_put_other; [apply IH|].
    intro C. subst k'. rewrite (proj2 (key_eqb_eq k k) eq_refl) in E. discriminate.
Qed.

Theorem settings_persist fs s0 h : files_ok fs -> settings_init fs = Ok s0 ->
  exists s, settings_init (files_after h fs) = Ok s /\
    forall k, get k s = match last_accepted k (rev h) with Some v => v | None => get k s0 end.
Proof.
  intros FO H. destruct (good_of_init fs s0 FO H) as (dd & dc & GD & GC). eexists.
  split; [exact (history_good h fs dd dc s0 GD GC H)|]. intro k. apply last_accepted_fold.
Qed.

Theorem update_frame fs d k v w s : text_ok (custom_file fs) -> contents (custom_file fs) d -> accepted k v = Some w ->
  let '(s', fs', r) := set_property k v s fs in
  r = Ok tt /\ default_file fs' = default_file fs /\ get k s' = v /\ (forall k', k' <> k -> get k' s' = get k' s) /\
  exists d', contents (custom_file fs') d' /\ (forall name, name <> key_name k -> dget text_eqb name d' = dget text_eqb name d) /\
    map fst d' = map fst d ++ (if existsb (text_eqb (key_name k)) (map fst d) then [] else [key_name k]).
Proof.
  intros T C A. pose proof (good_of _ _ T C) as G. pose proof (set_good k v s fs d G) as (d' & G' & E').
  pose proof (set_default k v s fs) as SD. unfold set_property in *. rewrite (update_good _ _ k v G) in *. pose proof (value_accept k v) as VA.
  destruct (value_json k v) as [j|e]; [|congruence]. cbn [fst snd custom_file default_file] in *.
  split; [reflexivity|]. split; [reflexivity|]. split; [apply get_put_same|]. split; [intros k' N; apply get_put_other; congruence|].
  exists d'. split; [apply contents_holds; exact (proj1 G')|]. subst d'. split.
  - intros name N. apply (dget_dset_other text_eqb text_eqb_eq). congruence.
  - clear. induction d as [|[n x] d IH]; [reflexivity|]. cbn [dset map fst existsb].
    destruct (text_eqb (key_name k) n) eqn:E; cbn [map fst orb app].
    + rewrite app_nil_r. reflexivity.
    + rewrite IH. reflexivity.
Qed.

(** ** Rejected values *)
Theorem rejected_value k v s fs : accepted k v = None ->
  let '(s', fs', r) := set_property k v s fs in
  fs' = fs /\ get k s' = v /\ (forall k', k' <> k -> get k' s' = get k' s) /\ exists e, r = Err e.
Proof.
  intro A. unfold set_property. destruct (createOrUpdate (custom_file fs) k v) as [t|e] eqn:E.
  - exfalso. unfold createOrUpdate in E. destruct (read_current (custom_file fs)); [|discriminate]. cbn [bind] in E.
    pose proof (value_accept k v) as VA. destruct (value_json k v); [|discriminate]. destruct VA as (_ & w & W & _). congruence.
  - split; [reflexivity|]. split; [apply get_put_same|]. split; [intros k' N; apply get_put_other; congruence|]. exists e. reflexivity.
Qed.

Lemma value_error k v e : value_json k v = Err e ->
  e = if match k, v with KPrecision, VTuple [] => true | KPrecision, VTuple [x] => is_int x | _, _ => false end
      then IndexError else InvalidSettingException.
Proof.
  destruct k, v; cbn; intro H; try congruence.
  - destruct j; congruence.
  - destruct l as [|x l]; [congruence|]. rewrite as_int_eq in H. destruct (is_int x) eqn:IX.
    + destruct (is_int_inv x IX) as (jx & -> & CX). destruct l as [|y l]; [congruence|]. rewrite as_int_eq in H.
      destruct (is_int y) eqn:IY; [|congruence]. destruct (is_int_inv y IY) as (jy & -> & CY). discriminate.
    + destruct l; congruence.
Qed.

Theorem setter_outcome k v s fs d : contents (custom_file fs) d -> text_ok (custom_file fs) ->
  snd (set_property k v s fs) =
  match accepted k v with
  | Some _ => Ok tt
  | None => Err (if match k, v with KPrecision, VTuple [] => true | KPrecision, VTuple [x] => is_int x | _, _ => false end
                 then IndexError else InvalidSettingException)
  end.
Proof.
  intros C T. pose proof (good_of _ _ T C) as G. unfold set_property. rewrite (update_good _ _ k v G). pose proof (value_accept k v) as VA.
  destruct (value_json k v) as [j|e] eqn:E; cbn [snd].
  - destruct VA as (_ & w & -> & _). reflexivity.
  - rewrite VA. f_equal. apply value_error. exact E.
Qed.
