(** * Settings files: what is written, and that only the document counts *)
From Verif Require Import PyBase Json_Model Json_Proofs Json_Proofs2 JsonText_Spec JsonText_Proofs Settings_Model Settings_Spec Settings_Proofs.
From Coq Require Import Ascii ZifyN ZifyBool.
Open Scope N_scope.
Ltac Zify.zify_post_hook ::= Z.div_mod_to_equations.

Lemma hexd_plain n : n < 16 -> plain (hexd n).
Proof. intro H. unfold hexd, plain. destruct (n <? 10) eqn:E; lia. Qed.
Lemma uesc_plain u : u < 65536 -> Forall plain (uesc u).
Proof.
  intro H. unfold uesc, hex4. repeat (constructor; [first [unfold plain; lia | apply hexd_plain; lia]|]). constructor.
Qed.
Lemma enc_char_plain c : c < 1114112 -> Forall plain (enc_char c).
Proof.
  intro H. unfold enc_char.
  repeat match goal with |- context [if ?b then _ else _] => destruct b eqn:? end;
    try (repeat (constructor; [unfold plain; lia|]); exact (Forall_nil _)).
  - apply uesc_plain. lia.
  - apply Forall_app. split; apply uesc_plain; lia.
Qed.
Lemma enc_str_plain s : wf_chars s -> Forall plain (enc_str s).
Proof.
  intro W. unfold enc_str. constructor; [unfold plain; lia|]. apply Forall_app. split.
  - unfold enc_chars. induction s as [|c s IH]; [constructor|]. destruct W as (W1 & _ & W3). cbn [flat_map].
    apply Forall_app. split; [apply enc_char_plain; exact W1|exact (IH W3)].
  - constructor; [unfold plain; lia|constructor].
Qed.
Lemma digit_plain c : is_digit c = true -> plain c.
Proof. unfold is_digit, plain. lia. Qed.
Lemma all_digits_plain ds : all_digits ds -> Forall plain ds.
Proof. intros [_ F]. eapply Forall_impl; [exact digit_plain|exact F]. Qed.
Lemma wf_nat_plain i : wf_nat i -> Forall plain i.
Proof. intros [->|[A _]]; [constructor; [unfold plain; lia|constructor]|apply all_digits_plain; exact A]. Qed.
Lemma scalar_plain v w : scalar_text v w -> Forall plain w.
Proof.
  intros [(i & f & e & W1 & W2 & W3 & -> & _)|HI].
  - repeat (apply Forall_app; split).
    + destruct W1 as [W|(ds & -> & W)]; [apply wf_nat_plain; exact W|constructor; [unfold plain; lia|apply wf_nat_plain; exact W]].
    + destruct W2 as [->|(ds & -> & W)]; [constructor|constructor; [unfold plain; lia|apply all_digits_plain; exact W]].
    + destruct W3 as [->|(c & ds & C & W & E)]; [constructor|]. apply all_digits_plain in W.
      destruct E as [->|(g & G & ->)]; repeat (constructor; [unfold plain; lia|]); exact W.
  - cbn in HI. repeat (destruct HI as [HI|HI]; [injection HI as <- <-; cbn; repeat (constructor; [unfold plain; lia|]); constructor|]). contradiction.
Qed.
Lemma newline_plain k : Forall plain (newline k).
Proof.
  unfold newline. constructor; [unfold plain; lia|]. apply Forall_forall. intros c HI. apply repeat_spec in HI. subst c. unfold plain. lia.
Qed.

Theorem enc_plain v : canonical v -> forall level, Forall plain (enc level v).
Proof.
  induction v as [|b|z|l|s|l IH|d IH] using json_ind'; intros C level.
  - apply (scalar_plain JNull). right. cbn. tauto.
  - destruct b; [apply (scalar_plain (JBool true))|apply (scalar_plain (JBool false))]; right; cbn; tauto.
  - apply (scalar_plain (JInt z)), enc_int_ok.
  - exact (scalar_plain _ _ C).
  - apply enc_str_plain. exact C.
  - apply canonical_list in C. destruct l as [|x l]; [repeat (constructor; [unfold plain; lia|]); constructor|].
    rewrite enc_list. inversion C as [|? ? Cx Cl]; inversion IH as [|? ? Rx Rl]; subst. constructor; [unfold plain; lia|].
    apply Forall_app. split; [apply newline_plain|]. apply Forall_app. split; [apply Rx; exact Cx|].
    apply Forall_app. split; [|apply Forall_app; split; [apply newline_plain|constructor; [unfold plain; lia|constructor]]].
    clear Cx Rx C IH. induction l as [|y l IHl]; [constructor|]. inversion Cl; inversion Rl; subst.
    cbn [items_l]. constructor; [unfold plain; lia|]. apply Forall_app. split; [apply newline_plain|].
    apply Forall_app. split; [auto|]. apply IHl; assumption.
  - apply canonical_obj in C as [_ C]. destruct d as [|[k x] d]; [repeat (constructor; [unfold plain; lia|]); constructor|].
    rewrite enc_obj. inversion C as [|? ? [Wk Cx] Cl]; inversion IH as [|? ? Rx Rl]; subst. cbn [fst snd] in *. constructor; [unfold plain; lia|].
    apply Forall_app. split; [apply newline_plain|]. apply Forall_app. split; [apply enc_str_plain; exact Wk|].
    apply Forall_app. split; [repeat (constructor; [unfold plain; lia|]); constructor|].
    apply Forall_app. split; [apply Rx; exact Cx|].
    apply Forall_app. split; [|apply Forall_app; split; [apply newline_plain|constructor; [unfold plain; lia|constructor]]].
    clear Cx Rx C IH Wk. induction d as [|[k' y] d IHl]; [constructor|]. inversion Cl as [|? ? [Wk' Cy] Cl']; inversion Rl as [|? ? Ry Rl']; subst.
    cbn [fst snd] in *. cbn [items_d]. constructor; [unfold plain; lia|]. apply Forall_app. split; [apply newline_plain|].
    apply Forall_app. split; [apply enc_str_plain; exact Wk'|]. cbn [app]. repeat (constructor; [unfold plain; lia|]).
    apply Forall_app. split; [auto|]. apply IHl; assumption.
Qed.

(** ** The files of the settings service *)
Lemma same_load_core f f' s : same_document f f' -> load_core f s = load_core f' s.
Proof. destruct f as [t|], f' as [t'|]; cbn [same_document load_core]; try tauto. intros (v & D & D'). apply loads_document in D, D'. rewrite D, D'. reflexivity. Qed.
Lemma same_load_settings f f' s : same_document f f' -> load_settings f s = load_settings f' s.
Proof. destruct f as [t|], f' as [t'|]; cbn [same_document load_settings]; try tauto. intros (v & D & D'). apply loads_document in D, D'. rewrite D, D'. reflexivity. Qed.
Lemma same_update f f' k v : same_document f f' -> createOrUpdate f k v = createOrUpdate f' k v.
Proof.
  unfold createOrUpdate. destruct f as [t|], f' as [t'|]; cbn [same_document read_current]; try tauto.
  intros (x & D & D'). apply loads_document in D, D'. rewrite D, D'. reflexivity.
Qed.
Lemma same_init fs fs' : same_document (default_file fs) (default_file fs') -> same_document (custom_file fs) (custom_file fs') ->
  settings_init fs = settings_init fs'.
Proof.
  intros D C. assert (CI : core_init fs = core_init fs').
  { unfold core_init. rewrite (same_load_core _ _ [] D). destruct (load_core (default_file fs') []) as [s|e]; cbn [bind]; [|reflexivity].
    rewrite (same_load_core _ _ s C). reflexivity. }
  unfold settings_init. rewrite CI. destruct (core_init fs') as [x|e]; cbn [bind]; [|reflexivity].
  rewrite (same_load_settings _ _ [] D). destruct (load_settings (default_file fs') []) as [s|e]; cbn [bind]; [|reflexivity].
  rewrite (same_load_settings _ _ s C). reflexivity.
Qed.
Lemma same_set k v s fs fs' : same_document (custom_file fs) (custom_file fs') ->
  let '(s1, g1, r1) := set_property k v s fs in let '(s2, g2, r2) := set_property k v s fs' in
  s1 = s2 /\ r1 = r2 /\ (r1 = Ok tt -> custom_file g1 = custom_file g2) /\ (r1 <> Ok tt -> g1 = fs /\ g2 = fs').
Proof.
  intro C. unfold set_property. rewrite (same_update _ _ k v C). destruct (createOrUpdate (custom_file fs') k v) as [t|e]; cbn [custom_file].
  - split; [reflexivity|]. split; [reflexivity|]. split; [reflexivity|]. intro H. destruct (H eq_refl).
  - split; [reflexivity|]. split; [reflexivity|]. split; [discriminate|]. split; reflexivity.
Qed.
Lemma written_plain k v s fs s' fs' : text_ok (custom_file fs) -> set_property k v s fs = (s', fs', Ok tt) ->
  exists t d, custom_file fs' = Some t /\ document (JObj d) t /\ Forall plain t.
Proof.
  intros T H. unfold set_property in H. destruct (createOrUpdate (custom_file fs) k v) as [t|e] eqn:U; [|congruence].
  assert (E : fs' = mkFiles (default_file fs) (Some t)) by congruence. clear H. subst fs'. cbn [custom_file].
  assert (R : exists d, contents (custom_file fs) d).
  { unfold createOrUpdate, read_current in U. destruct (custom_file fs) as [t0|]; [|exists []; reflexivity].
    destruct (loads t0) as [j|] eqn:L; [|discriminate]. cbn [bind] in U. destruct (value_json k v); [|discriminate]. cbn [bind] in U.
    destruct j; try discriminate. exists d. apply contents_holds. exact L. }
  destruct R as [d C]. pose proof (good_of _ _ T C) as G. rewrite (update_good _ _ k v G) in U. pose proof (value_accept k v) as VA.
  destruct (value_json k v) as [j|]; [|discriminate]. assert (E : t = dumps (JObj (dset text_eqb (key_name k) j d))) by congruence. subst t.
  pose proof (dset_canonical k j d (proj2 G) (proj1 VA)) as CD. eexists. exists (dset text_eqb (key_name k) j d). split; [reflexivity|].
  split; [apply loads_document; exact (proj1 (good_dumps _ CD))|]. apply enc_plain. apply canonical_obj. exact CD.
Qed.
