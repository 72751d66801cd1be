(** * Settings: crashes, concurrent updates, the two services compared *)
From Verif Require Import PyBase Json_Model Json_Proofs Json_Proofs2 Settings_Model Settings_Spec Settings_Proofs.
Open Scope list_scope.

(** ** Crashes *)
Lemma broken_stays h : forall fs p, custom_file fs = Some p -> loads p = Err JSONDecodeError ->
  custom_file (files_after h fs) = Some p /\ default_file (files_after h fs) = default_file fs.
Proof.
  induction h as [|[[s k] v] h IH]; intros fs p E L; [auto|]. cbn [files_after fold_left fst snd].
  assert (S : snd (fst (set_property k v s fs)) = fs).
  { unfold set_property, createOrUpdate, read_current. rewrite E, L. reflexivity. }
  rewrite S. apply IH; assumption.
Qed.
Lemma broken_setter fs p k v s : custom_file fs = Some p -> loads p = Err JSONDecodeError ->
  snd (set_property k v s fs) = Err InvalidSettingException.
Proof. intros E L. unfold set_property, createOrUpdate, read_current. rewrite E, L. reflexivity. Qed.
Lemma broken_init fs dd p : good (default_file fs) dd -> custom_file fs = Some p -> loads p = Err JSONDecodeError ->
  settings_init fs = Err JSONDecodeError.
Proof.
  intros GD E L. unfold settings_init, core_init. destruct (load_core_good _ _ [] GD) as (s1 & -> & _). cbn [bind].
  rewrite E. cbn [load_core]. rewrite L. reflexivity.
Qed.

Theorem crash_outcomes fs s0 k v s new : files_ok fs -> settings_init fs = Ok s0 -> after_crash k v (custom_file fs) new ->
  let fs' := mkFiles (default_file fs) new in
  new = custom_file fs \/
  fs' = snd (fst (set_property k v s fs)) /\ snd (set_property k v s fs) = Ok tt \/
  (exists p, new = Some p) /\
  forall h, settings_init (files_after h fs') = Err JSONDecodeError /\ custom_file (files_after h fs') = new /\
    forall k' v' s', snd (set_property k' v' s' (files_after h fs')) = Err InvalidSettingException.
Proof.
  intros FO H A fs'. destruct A as [A|(t & p & q & U & E & N)]; [left; exact A|right].
  destruct (good_of_init fs s0 FO H) as (dd & dc & GD & GC).
  destruct q as [|c q].
  - left. subst fs'. rewrite app_nil_r in E. subst. unfold set_property. rewrite U. cbn. auto.
  - right. split; [exists p; exact N|]. rewrite (update_good _ _ k v GC) in U. pose proof (value_accept k v) as VA.
    destruct (value_json k v) as [j|e]; [|discriminate]. injection U as U. subst t.
    assert (L : loads p = Err JSONDecodeError).
    { apply (loads_truncated _ p (c :: q) (proj2 (canonical_obj _) (dset_canonical k j dc (proj2 GC) (proj1 VA))) E). discriminate. }
    intro h. destruct (broken_stays h fs' p N L) as [B1 B2].
    split; [apply (broken_init _ dd p); [rewrite B2; exact GD|exact B1|exact L]|]. split; [rewrite B1; symmetry; exact N|].
    intros k' v' s'. apply (broken_setter _ p); assumption.
Qed.

(** ** Text after the end of the object *)
Lemma loads_trailing d rest : canonical (JObj d) -> skip_ws rest <> [] -> loads (dumps (JObj d) ++ rest) = Err JSONDecodeError.
Proof.
  intros C W. unfold dumps.
  assert (O : opens (enc 0 (JObj d))) by (destruct d as [|[? ?] ?]; cbn; tauto).
  destruct (all_read_back _ C 0%nat rest (or_intror O)) as (m & Em).
  assert (SK : skip_ws (enc 0 (JObj d) ++ rest) = enc 0 (JObj d) ++ rest) by (destruct d as [|[? ?] ?]; reflexivity).
  rewrite (loads_of_parse _ _ _ _ SK Em).
  destruct (skip_ws rest); [contradiction|reflexivity].
Qed.
Lemma skip_ws_brace t : skip_ws (t ++ [125%N]) <> [].
Proof. induction t as [|c t IH]; cbn; [discriminate|]. destruct (is_ws c); [exact IH|discriminate]. Qed.
Lemma dumps_brace d : exists t, dumps (JObj d) = t ++ [125%N].
Proof.
  unfold dumps. destruct d as [|[k x] d]; [exists [123%N]; reflexivity|]. rewrite enc_obj.
  exists (123%N :: newline 1 ++ enc_str k ++ [58%N; 32%N] ++ enc 1 x ++ items_d 0 d ++ newline 0).
  cbn [app]. f_equal. rewrite <- !app_assoc. cbn [app]. rewrite <- !app_assoc. reflexivity.
Qed.
Lemma skipn_suffix {A} n (l : list A) x : (n < List.length (l ++ [x]))%nat -> exists m, skipn n (l ++ [x]) = m ++ [x].
Proof.
  rewrite app_length. cbn. intro L. exists (skipn n l). rewrite skipn_app.
  replace (n - List.length l)%nat with 0%nat by lia. reflexivity.
Qed.
Lemma overlay d d' : canonical (JObj d) ->
  overwrite (dumps (JObj d)) (Some (dumps (JObj d'))) = Some (dumps (JObj d)) \/
  exists t, overwrite (dumps (JObj d)) (Some (dumps (JObj d'))) = Some t /\ loads t = Err JSONDecodeError.
Proof.
  intro C. cbn [overwrite]. set (t := dumps (JObj d)). destruct (dumps_brace d') as [u U]. rewrite U.
  destruct (Nat.le_gt_cases (List.length (u ++ [125%N])) (List.length t)) as [L|G].
  - left. rewrite skipn_all2 by exact L. rewrite app_nil_r. reflexivity.
  - right. eexists. split; [reflexivity|]. destruct (skipn_suffix (List.length t) u 125%N G) as [m M]. rewrite M.
    apply loads_trailing; [exact C|apply skip_ws_brace].
Qed.

(** ** Concurrent updates *)
Section Two.
  Variables (k1 k2 : key) (v1 v2 : pyval) (j1 j2 : json) (d : list (text * json)) (f : file).
  Hypothesis NK : k1 <> k2.
  Hypothesis G : good f d.
  Hypothesis A1 : value_json k1 v1 = Ok j1.
  Hypothesis A2 : value_json k2 v2 = Ok j2.
  Let D1 := dset text_eqb (key_name k1) j1 d.
  Let D2 := dset text_eqb (key_name k2) j2 d.
  Let D12 := dset text_eqb (key_name k2) j2 D1.
  Let D21 := dset text_eqb (key_name k1) j1 D2.
  Let t1 := dumps (JObj D1).
  Let t2 := dumps (JObj D2).
  Let t12 := dumps (JObj D12).
  Let t21 := dumps (JObj D21).

  Let C1 : canonical j1. Proof. pose proof (value_accept k1 v1) as H. rewrite A1 in H. tauto. Qed.
  Let C2 : canonical j2. Proof. pose proof (value_accept k2 v2) as H. rewrite A2 in H. tauto. Qed.
  Let CD1 : canonical_dict D1. Proof. apply dset_canonical; [exact (proj2 G)|exact C1]. Qed.
  Let CD2 : canonical_dict D2. Proof. apply dset_canonical; [exact (proj2 G)|exact C2]. Qed.
  Let CD12 : canonical_dict D12. Proof. apply dset_canonical; [exact CD1|exact C2]. Qed.
  Let CD21 : canonical_dict D21. Proof. apply dset_canonical; [exact CD2|exact C1]. Qed.
  Let U1 : createOrUpdate f k1 v1 = Ok t1. Proof. rewrite (update_good _ _ _ _ G), A1. reflexivity. Qed.
  Let U2 : createOrUpdate f k2 v2 = Ok t2. Proof. rewrite (update_good _ _ _ _ G), A2. reflexivity. Qed.
  Let U12 : createOrUpdate (Some t1) k2 v2 = Ok t12. Proof. rewrite (update_good _ _ _ _ (good_dumps _ CD1)), A2. reflexivity. Qed.
  Let U21 : createOrUpdate (Some t2) k1 v1 = Ok t21. Proof. rewrite (update_good _ _ _ _ (good_dumps _ CD2)), A1. reflexivity. Qed.
  Let UE k v : createOrUpdate (Some []) k v = Err InvalidSettingException. Proof. reflexivity. Qed.

  Inductive reach : pc -> pc -> file -> Prop :=
  | r_ss : reach PStart PStart f
  | r_rs : reach (PRead t1) PStart f
  | r_sr : reach PStart (PRead t2) f
  | r_rr : reach (PRead t1) (PRead t2) f
  | r_os : reach (POpened t1) PStart (Some [])
  | r_so : reach PStart (POpened t2) (Some [])
  | r_or : reach (POpened t1) (PRead t2) (Some [])
  | r_ro : reach (PRead t1) (POpened t2) (Some [])
  | r_of : reach (POpened t1) (PFailed InvalidSettingException) (Some [])
  | r_fo : reach (PFailed InvalidSettingException) (POpened t2) (Some [])
  | r_oo : reach (POpened t1) (POpened t2) (Some [])
  | r_ds : reach PDone PStart (Some t1)
  | r_sd : reach PStart PDone (Some t2)
  | r_df : reach PDone (PFailed InvalidSettingException) (Some t1)
  | r_fd : reach (PFailed InvalidSettingException) PDone (Some t2)
  | r_dr t : t = t2 \/ t = t12 -> reach PDone (PRead t) (Some t1)
  | r_rd t : t = t1 \/ t = t21 -> reach (PRead t) PDone (Some t2)
  | r_do t : t = t2 \/ t = t12 -> reach PDone (POpened t) (Some [])
  | r_od t : t = t1 \/ t = t21 -> reach (POpened t) PDone (Some [])
  | r_do' : reach PDone (POpened t2) (Some t1)
  | r_od' : reach (POpened t1) PDone (Some t2)
  | r_dd t : t = t1 \/ t = t2 \/ t = t12 \/ t = t21 -> reach PDone PDone (Some t)
  | r_mix12 : reach PDone PDone (overwrite t2 (Some t1))
  | r_mix21 : reach PDone PDone (overwrite t1 (Some t2)).

  Lemma overwrite_empty t : overwrite t (Some []) = Some t.
  Proof. cbn. rewrite skipn_nil, app_nil_r. reflexivity. Qed.

  Lemma reach_step (b : bool) p1 p2 g : reach p1 p2 g ->
    let '(p1', p2', g') := (if b then let (p1', f') := update_step k1 v1 p1 g in (p1', p2, f')
         else let (p2', f') := update_step k2 v2 p2 g in (p1, p2', f')) in reach p1' p2' g'.
  Proof.
    intro R. destruct b; inversion R; subst; cbn [update_step]; rewrite ?UE, ?U1, ?U2, ?U12, ?U21, ?overwrite_empty; try (constructor; tauto).
  Qed.
  Lemma reach_run sched : forall p1 p2 g, reach p1 p2 g ->
    let '(p1', p2', g') := interleave k1 v1 k2 v2 sched (p1, p2, g) in reach p1' p2' g'.
  Proof.
    induction sched as [|b sched IH]; intros p1 p2 g R; [exact R|]. cbn [interleave].
    pose proof (reach_step b p1 p2 g R) as S.
    destruct (if b then let (p1', f') := update_step k1 v1 p1 g in (p1', p2, f')
         else let (p2', f') := update_step k2 v2 p2 g in (p1, p2', f')) as [[p1' p2'] g']. apply IH. exact S.
  Qed.

  Lemma merges_all t : t = t1 \/ t = t2 \/ t = t12 \/ t = t21 -> exists d', loads t = Ok (JObj d') /\ merges k1 k2 d D1 D2 d'.
  Proof.
    assert (N12 : key_name k1 <> key_name k2) by (intro C; apply key_name_inj in C; contradiction).
    assert (N21 : key_name k2 <> key_name k1) by congruence.
    pose proof (dget_dset_same text_eqb text_eqb_eq (V := json)) as S. pose proof (dget_dset_other text_eqb text_eqb_eq (V := json)) as O.
    assert (OT : forall name k j dd, name <> key_name k -> dget text_eqb name (dset text_eqb (key_name k) j dd) = dget text_eqb name dd)
      by (intros; apply O; congruence).
    intro H. destruct H as [H|[H|[H|H]]]; subst t; eexists;
      (split; [apply loads_dumps, canonical_obj; assumption|]); unfold merges, D12, D21, D1, D2; cbv zeta;
      rewrite ?S, ?(O _ _ _ _ N12), ?(O _ _ _ _ N21), ?S;
      (split; [tauto|split; [tauto|split; [tauto|intros name Na Nb; rewrite ?OT by assumption; reflexivity]]]).
  Qed.

  Theorem interleavings sched p1 p2 g : interleave k1 v1 k2 v2 sched (PStart, PStart, f) = (p1, p2, g) ->
    finished p1 -> finished p2 ->
    (exists t, g = Some t /\ (loads t = Err JSONDecodeError \/ exists d', loads t = Ok (JObj d') /\ merges k1 k2 d D1 D2 d')) /\
    (p1 = PDone /\ p2 = PDone \/
     p1 = PDone /\ p2 = PFailed InvalidSettingException /\ g = Some t1 \/
     p1 = PFailed InvalidSettingException /\ p2 = PDone /\ g = Some t2).
  Proof.
    intros E F1 F2. pose proof (reach_run sched _ _ _ r_ss) as R. rewrite E in R.
    assert (M : forall t, t = t1 \/ t = t2 \/ t = t12 \/ t = t21 -> exists t', Some t = Some t' /\
      (loads t' = Err JSONDecodeError \/ exists d', loads t' = Ok (JObj d') /\ merges k1 k2 d D1 D2 d')).
    { intros t Ht. exists t. split; [reflexivity|]. right. apply merges_all. exact Ht. }
    inversion R; subst; cbn in F1, F2; try contradiction.
    - split; [apply M; tauto|]. right. left. auto.
    - split; [apply M; tauto|]. right. right. auto.
    - split; [apply M; assumption|]. left. auto.
    - split; [|left; auto]. destruct (overlay D2 D1 (proj2 (canonical_obj _) CD2)) as [H|(t & H & L)].
      + change (dumps (JObj D2)) with t2 in H. change (dumps (JObj D1)) with t1 in H. rewrite H. apply M. tauto.
      + exists t. split; [exact H|]. left. exact L.
    - split; [|left; auto]. destruct (overlay D1 D2 (proj2 (canonical_obj _) CD1)) as [H|(t & H & L)].
      + change (dumps (JObj D2)) with t2 in H. change (dumps (JObj D1)) with t1 in H. rewrite H. apply M. tauto.
      + exists t. split; [exact H|]. left. exact L.
  Qed.

  (** Schedules with each outcome. *)
  Lemma run_sequential : exists t d', interleave k1 v1 k2 v2 [true; true; true; false; false; false] (PStart, PStart, f) = (PDone, PDone, Some t) /\
    loads t = Ok (JObj d') /\ dget text_eqb (key_name k1) d' = dget text_eqb (key_name k1) D1 /\
    dget text_eqb (key_name k2) d' = dget text_eqb (key_name k2) D2.
  Proof.
    exists t12, D12. split; [|split; [apply loads_dumps, canonical_obj; exact CD12|]].
    - cbn [interleave update_step]. rewrite U1. cbn [update_step]. rewrite overwrite_empty, U12. cbn [update_step]. rewrite overwrite_empty. reflexivity.
    - unfold D12. split.
      + apply (dget_dset_other text_eqb text_eqb_eq). intro C. apply key_name_inj in C. congruence.
      + unfold D2. rewrite !(dget_dset_same text_eqb text_eqb_eq). reflexivity.
  Qed.
  Lemma run_lost : interleave k1 v1 k2 v2 [true; false; true; true; false; false] (PStart, PStart, f) = (PDone, PDone, Some t2).
  Proof. cbn [interleave update_step]. rewrite U1. cbn [update_step]. rewrite U2. cbn [update_step]. rewrite !overwrite_empty. reflexivity. Qed.
  Lemma run_spurious : interleave k1 v1 k2 v2 [true; true; false; true] (PStart, PStart, f) = (PDone, PFailed InvalidSettingException, Some t1).
  Proof. cbn [interleave update_step]. rewrite U1. cbn [update_step]. rewrite UE. cbn [update_step]. rewrite ?overwrite_empty. reflexivity. Qed.
  Lemma run_mixed : (List.length t2 < List.length t1)%nat ->
    exists t, interleave k1 v1 k2 v2 [true; false; true; false; true; false] (PStart, PStart, f) = (PDone, PDone, Some t) /\
      loads t = Err JSONDecodeError.
  Proof.
    intro L. destruct (overlay D2 D1 (proj2 (canonical_obj _) CD2)) as [H|(t & H & E)].
    - exfalso. change (dumps (JObj D2)) with t2 in H. change (dumps (JObj D1)) with t1 in H. cbn [overwrite] in H. injection H as H.
      apply (f_equal (@List.length N)) in H. rewrite app_length, skipn_length in H. lia.
    - exists t. split; [|exact E]. cbn [interleave update_step]. rewrite U1. cbn [update_step]. rewrite U2. cbn [update_step].
      rewrite !overwrite_empty. rewrite <- H. reflexivity.
  Qed.

  (** Atomic writes. *)
  Inductive reach_a : pc -> pc -> file -> Prop :=
  | a_ss : reach_a PStart PStart f
  | a_rs : reach_a (PRead t1) PStart f
  | a_sr : reach_a PStart (PRead t2) f
  | a_rr : reach_a (PRead t1) (PRead t2) f
  | a_ds : reach_a PDone PStart (Some t1)
  | a_sd : reach_a PStart PDone (Some t2)
  | a_dr t : t = t2 \/ t = t12 -> reach_a PDone (PRead t) (Some t1)
  | a_rd t : t = t1 \/ t = t21 -> reach_a (PRead t) PDone (Some t2)
  | a_dd t : t = t1 \/ t = t2 \/ t = t12 \/ t = t21 -> reach_a PDone PDone (Some t).
  Lemma reach_a_run sched : forall p1 p2 g, reach_a p1 p2 g ->
    let '(p1', p2', g') := interleave_atomic k1 v1 k2 v2 sched (p1, p2, g) in reach_a p1' p2' g'.
  Proof.
    induction sched as [|b sched IH]; intros p1 p2 g R; [exact R|]. cbn [interleave_atomic].
    destruct b; inversion R; subst; cbn [update_step]; rewrite ?UE, ?U1, ?U2, ?U12, ?U21; apply IH; constructor; tauto.
  Qed.
  Theorem atomic_interleavings sched p1 p2 g : interleave_atomic k1 v1 k2 v2 sched (PStart, PStart, f) = (p1, p2, g) ->
    finished p1 -> finished p2 ->
    p1 = PDone /\ p2 = PDone /\ exists t d', g = Some t /\ loads t = Ok (JObj d') /\ merges k1 k2 d D1 D2 d'.
  Proof.
    intros E F1 F2. pose proof (reach_a_run sched _ _ _ a_ss) as R. rewrite E in R.
    inversion R; subst; cbn in F1, F2; try contradiction. split; [reflexivity|]. split; [reflexivity|].
    destruct (merges_all t H) as (d' & L & M). exists t, d'. auto.
  Qed.
End Two.

(** ** RAM and JSON *)
Lemma json_set_valid k v s fs dd dc : accepted k v = Some v -> good (default_file fs) dd -> good (custom_file fs) dc -> settings_init fs = Ok s ->
  exists fs' dc', set_property k v s fs = (put k v s, fs', Ok tt) /\ good (default_file fs') dd /\ good (custom_file fs') dc' /\
    settings_init fs' = Ok (put k v s).
Proof.
  intros A GD GC H. pose proof (init_set fs dd dc s k v s GD GC H) as I. unfold updated in I. rewrite A in I.
  destruct (set_good k v s fs dc GC) as (dc' & G' & _). pose proof (set_default k v s fs) as SD.
  unfold set_property in *. rewrite (update_good _ _ k v GC) in *. pose proof (value_accept k v) as VA.
  destruct (value_json k v) as [j|e]; [|congruence]. cbn [fst snd] in *. eexists. exists dc'. split; [reflexivity|].
  split; [exact GD|]. split; [exact G'|exact I].
Qed.
Theorem ram_json h k : forall fs s sr dd dc, Forall valid_op h -> good (default_file fs) dd -> good (custom_file fs) dc ->
  settings_init fs = Ok s -> Exists (sets k) h \/ get k s = get k sr ->
  json_answer h k s fs = Ok (ram_answer h k sr).
Proof.
  induction h as [|o h IH]; intros fs s sr dd dc V GD GC H K.
  - cbn. f_equal. destruct K as [K|K]; [inversion K|exact K].
  - inversion V as [|? ? V1 V2]; subst. destruct o as [k' v|]; cbn [json_answer ram_answer].
    + destruct (json_set_valid k' v s fs dd dc V1 GD GC H) as (fs' & dc' & -> & GD' & GC' & I). cbn [bind].
      apply (IH fs' _ _ dd dc'); try assumption. unfold ram_set. destruct (key_eqb k' k) eqn:E.
      * apply key_eqb_eq in E. subst k'. right. rewrite !get_put_same. reflexivity.
      * assert (N : k' <> k) by (intro C; apply key_eqb_eq in C; congruence). destruct K as [K|K].
        -- inversion K as [? ? K1|? ? K1]; subst; [contradiction|left; exact K1].
        -- right. rewrite !get_put_other by exact N. exact K.
    + rewrite H. cbn [bind]. apply (IH fs _ _ dd dc); try assumption.
      destruct K as [K|K]; [|right; exact K]. inversion K as [? ? K1|? ? K1]; subst; [contradiction|left; exact K1].
Qed.
