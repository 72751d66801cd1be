(** * JSON text: the reader accepts exactly the documents of JsonText_Spec.v *)
From Verif Require Import PyBase Json_Model Json_Proofs Json_Proofs2 JsonText_Spec.
From Coq Require Import Ascii ZifyN ZifyBool.
Open Scope N_scope.
Ltac Zify.zify_post_hook ::= Z.div_mod_to_equations.

(** ** Blanks *)
Lemma is_ws_blank c : is_ws c = true <-> blank c.
Proof. unfold is_ws, blank. lia. Qed.
Lemma is_ws_not c : is_ws c = false <-> ~ blank c.
Proof. unfold is_ws, blank. lia. Qed.
Lemma skip_blanks b t : blanks b -> skip_ws (b ++ t) = skip_ws t.
Proof. induction 1 as [|c b H _ IH]; [reflexivity|]. apply is_ws_blank in H. cbn [app skip_ws]. rewrite H. exact IH. Qed.
Lemma skip_split s : exists b, blanks b /\ s = b ++ skip_ws s.
Proof.
  induction s as [|c s (b & B & E)]; [exists []; split; [constructor|reflexivity]|]. cbn [skip_ws]. destruct (is_ws c) eqn:W.
  - exists (c :: b). split; [constructor; [apply is_ws_blank; exact W|exact B]|]. cbn [app]. rewrite <- E. reflexivity.
  - exists []. split; [constructor|reflexivity].
Qed.
Lemma skip_all b : blanks b -> skip_ws b = [].
Proof. intro H. rewrite <- (app_nil_r b). rewrite skip_blanks by exact H. reflexivity. Qed.

(** ** Strings *)
Lemma unhex_iff c d : unhex c = Some d <-> hexdigit c d.
Proof.
  unfold unhex. split.
  - intro H. destruct ((48 <=? c) && (c <=? 57)) eqn:E1.
    { injection H as <-. replace c with (48 + (c - 48)) at 1 by lia. constructor. lia. }
    destruct ((97 <=? c) && (c <=? 102)) eqn:E2.
    { injection H as <-. replace c with (97 + (c - 97)) at 1 by lia. replace (c - 87) with (10 + (c - 97)) by lia. constructor. lia. }
    destruct ((65 <=? c) && (c <=? 70)) eqn:E3; [|discriminate].
    injection H as <-. replace c with (65 + (c - 65)) at 1 by lia. replace (c - 55) with (10 + (c - 65)) by lia. constructor. lia.
  - intros [e L|e L|e L].
    + replace ((48 <=? 48 + e) && (48 + e <=? 57)) with true by lia. f_equal. lia.
    + replace ((48 <=? 97 + e) && (97 + e <=? 57)) with false by lia. replace ((97 <=? 97 + e) && (97 + e <=? 102)) with true by lia. f_equal. lia.
    + replace ((48 <=? 65 + e) && (65 + e <=? 57)) with false by lia. replace ((97 <=? 65 + e) && (65 + e <=? 102)) with false by lia.
      replace ((65 <=? 65 + e) && (65 + e <=? 70)) with true by lia. f_equal. lia.
Qed.
Lemma unhex4_iff a b c d u : unhex4 a b c d = Some u <-> quad a b c d u.
Proof.
  unfold unhex4, quad. split.
  - destruct (unhex a) as [w|] eqn:A; [|discriminate]. destruct (unhex b) as [x|] eqn:B; [|discriminate].
    destruct (unhex c) as [y|] eqn:C; [|discriminate]. destruct (unhex d) as [z|] eqn:D; [|discriminate].
    intro H. injection H as <-. apply unhex_iff in A, B, C, D. exists w, x, y, z. do 4 (split; [assumption|]). lia.
  - intros (w & x & y & z & A & B & C & D & ->). apply unhex_iff in A, B, C, D. rewrite A, B, C, D. f_equal. lia.
Qed.
Lemma quad_bound a b c d u : quad a b c d u -> u < 65536.
Proof. intro H. apply unhex4_iff in H. exact (unhex4_bound _ _ _ _ _ H). Qed.
Lemma is_high_iff u : is_high u = true <-> high u.
Proof. unfold is_high, high. lia. Qed.
Lemma is_low_iff u : is_low u = true <-> low u.
Proof. unfold is_low, low. lia. Qed.
Lemma unescape_iff e c : unescape e = Some c <-> short e c.
Proof.
  unfold unescape. split.
  - intro H.
    destruct (e =? 34) eqn:E1; [cbn in H; injection H as <-; apply N.eqb_eq in E1; subst; constructor|].
    destruct (e =? 92) eqn:E2; [cbn in H; injection H as <-; apply N.eqb_eq in E2; subst; constructor|].
    destruct (e =? 47) eqn:E3; [cbn in H; injection H as <-; apply N.eqb_eq in E3; subst; constructor|]. cbn [orb] in H.
    destruct (e =? 98) eqn:E4; [injection H as <-; apply N.eqb_eq in E4; subst; constructor|].
    destruct (e =? 102) eqn:E5; [injection H as <-; apply N.eqb_eq in E5; subst; constructor|].
    destruct (e =? 110) eqn:E6; [injection H as <-; apply N.eqb_eq in E6; subst; constructor|].
    destruct (e =? 114) eqn:E7; [injection H as <-; apply N.eqb_eq in E7; subst; constructor|].
    destruct (e =? 116) eqn:E8; [injection H as <-; apply N.eqb_eq in E8; subst; constructor|discriminate].
  - intros []; reflexivity.
Qed.

Lemma low_escape_iff s : low_escape s = true <-> low_follows s.
Proof.
  split.
  - unfold low_escape. destruct s as [|b1 [|u1 [|a [|b [|c [|d s]]]]]]; try discriminate. intro H.
    apply andb_prop in H as [H1 H2]. apply andb_prop in H1 as [B U]. apply N.eqb_eq in B, U. subst b1 u1.
    destruct (unhex4 a b c d) as [u|] eqn:Q; [|discriminate]. apply unhex4_iff in Q. apply is_low_iff in H2.
    exists a, b, c, d, u, s. auto.
  - intros (a & b & c & d & u & s' & -> & Q & L). unfold low_escape. apply unhex4_iff in Q. apply is_low_iff in L. rewrite Q, L. reflexivity.
Qed.
Lemma low_follows_app s t : low_follows s -> low_follows (s ++ t).
Proof. intros (a & b & c & d & u & s' & -> & Q & L). exists a, b, c, d, u, (s' ++ t). auto. Qed.
Lemma not_hex_quote d : ~ hexdigit 34 d.
Proof. intro H. apply unhex_iff in H. discriminate. Qed.
Lemma low_follows_quote s r : low_follows (s ++ 34 :: r) -> low_follows s.
Proof.
  intros (a & b & c & d & u & s' & E & Q & L).
  assert (QQ := Q). destruct QQ as (w & x & y & z & A & B & C & D & _).
  destruct s as [|c1 [|c2 [|c3 [|c4 [|c5 [|c6 s]]]]]]; cbn [app] in E.
  - discriminate.
  - injection E as _ E _. discriminate.
  - injection E as _ _ E _. subst a. destruct (not_hex_quote _ A).
  - injection E as _ _ _ E _. subst b. destruct (not_hex_quote _ B).
  - injection E as _ _ _ _ E _. subst c. destruct (not_hex_quote _ C).
  - injection E as _ _ _ _ _ E _. subst d. destruct (not_hex_quote _ D).
  - injection E as -> -> -> -> -> -> _. exists a, b, c, d, u, s. auto.
Qed.

Lemma scan_u a b c d u s : quad a b c d u -> ~ (high u /\ low_follows s) ->
  scanstring (92 :: 117 :: a :: b :: c :: d :: s) = ocons u (scanstring s).
Proof.
  intros Q HL. cbn [scanstring]. change (92 =? 34) with false. change (92 =? 92) with true. change (117 =? 117) with true. cbn iota.
  apply unhex4_iff in Q. rewrite Q. destruct (is_high u) eqn:HU; [|reflexivity]. apply is_high_iff in HU.
  assert (LE : low_escape s = false) by (destruct (low_escape s) eqn:LE; [apply low_escape_iff in LE; tauto|reflexivity]). unfold low_escape in LE.
  destruct s as [|b1 [|u1 [|a2 [|b2 [|c2 [|d2 s]]]]]]; try reflexivity.
  destruct ((b1 =? 92) && (u1 =? 117)); [|reflexivity]. cbn [andb] in LE.
  destruct (unhex4 a2 b2 c2 d2) as [u2|]; [|reflexivity]. rewrite LE. reflexivity.
Qed.
Lemma scan_p a b c d hi a' b' c' d' lo s : quad a b c d hi -> high hi -> quad a' b' c' d' lo -> low lo ->
  scanstring (92 :: 117 :: a :: b :: c :: d :: 92 :: 117 :: a' :: b' :: c' :: d' :: s) =
  ocons (65536 + (hi - 55296) * 1024 + (lo - 56320)) (scanstring s).
Proof.
  intros Q H Q' L. apply unhex4_iff in Q, Q'. apply is_high_iff in H. apply is_low_iff in L.
  replace (65536 + (hi - 55296) * 1024 + (lo - 56320)) with (join hi lo) by (unfold join; lia).
  cbn [scanstring]. change (92 =? 34) with false. change (92 =? 92) with true. change (117 =? 117) with true. cbn [andb].
  rewrite Q, H, Q', L. reflexivity.
Qed.

Lemma chars_scan s x : chars s x -> forall r, scanstring (s ++ 34 :: r) = Some (x, r).
Proof.
  induction 1 as [|c s x H1 H2 H3 _ IH|e c s x H _ IH|a b c d u s x Q NL _ IH|a b c d hi a' b' c' d' lo s x Q H Q' L _ IH]; intro r.
  - reflexivity.
  - cbn [app scanstring]. replace (c =? 34) with false by lia. replace (c =? 92) with false by lia. replace (c <? 32) with false by lia.
    rewrite IH. reflexivity.
  - cbn [app scanstring]. change (92 =? 34) with false. change (92 =? 92) with true. cbn iota.
    replace (e =? 117) with false by (destruct H; reflexivity). apply unescape_iff in H. rewrite H, IH. reflexivity.
  - cbn [app]. rewrite scan_u with (u := u); [rewrite IH; reflexivity|exact Q|]. intros [HH LF]. apply NL. split; [exact HH|].
    exact (low_follows_quote _ _ LF).
  - cbn [app]. rewrite (scan_p _ _ _ _ hi _ _ _ _ lo) by assumption. rewrite IH. reflexivity.
Qed.

Lemma scan_chars_aux m : forall s x r, (List.length s <= m)%nat -> scanstring s = Some (x, r) -> exists src, s = src ++ 34 :: r /\ chars src x.
Proof.
  induction m as [|m IH]; intros s x r L H; destruct s as [|c s]; try (cbn in H; discriminate); [cbn in L; lia|].
  cbn [List.length] in L. cbn [scanstring] in H.
  destruct (c =? 34) eqn:C1.
  { injection H as <- <-. apply N.eqb_eq in C1. subst c. exists []. split; [reflexivity|constructor]. }
  destruct (c =? 92) eqn:C2.
  - apply N.eqb_eq in C2. subst c. destruct s as [|e s]; [discriminate|]. cbn [List.length] in L. destruct (e =? 117) eqn:EU.
    + apply N.eqb_eq in EU. subst e. destruct s as [|a [|b [|c [|d s]]]]; try discriminate. cbn [List.length] in L.
      destruct (unhex4 a b c d) as [u|] eqn:U; [|discriminate]. apply unhex4_iff in U.
      assert (STEP : ocons u (scanstring s) = Some (x, r) -> (is_high u = true -> low_escape s = false) ->
        exists src, 92 :: 117 :: a :: b :: c :: d :: s = src ++ 34 :: r /\ chars src x).
      { intros H' HH. apply ocons_inv in H' as (y & -> & H'). apply IH in H' as (src & -> & CH); [|lia].
        exists (92 :: 117 :: a :: b :: c :: d :: src). split; [reflexivity|]. apply ch_u; [exact U| |exact CH].
        intros [HU LF]. apply is_high_iff in HU. specialize (HH HU). apply (low_follows_app _ (34 :: r)) in LF. apply low_escape_iff in LF. congruence. }
      destruct (is_high u) eqn:HU; [|apply STEP; [exact H|discriminate]].
      destruct s as [|b1 [|u1 [|a2 [|b2 [|c2 [|d2 s]]]]]]; try (apply STEP; [exact H|reflexivity]).
      destruct ((b1 =? 92) && (u1 =? 117)) eqn:BU; [|apply STEP; [exact H|intros _; cbn [low_escape]; rewrite BU; reflexivity]].
      destruct (unhex4 a2 b2 c2 d2) as [u2|] eqn:U2; [|apply STEP; [exact H|intros _; cbn [low_escape]; rewrite BU, U2; reflexivity]].
      destruct (is_low u2) eqn:LU; [|apply STEP; [exact H|intros _; cbn [low_escape]; rewrite BU, U2; exact LU]].
      apply ocons_inv in H as (y & -> & H). cbn [List.length] in L. apply IH in H as (src & -> & CH); [|lia].
      apply andb_prop in BU as [B1 B2]. apply N.eqb_eq in B1, B2. subst b1 u1. apply unhex4_iff in U2. apply is_high_iff in HU. apply is_low_iff in LU.
      exists (92 :: 117 :: a :: b :: c :: d :: 92 :: 117 :: a2 :: b2 :: c2 :: d2 :: src). split; [reflexivity|].
      replace (join u u2) with (65536 + (u - 55296) * 1024 + (u2 - 56320)) by (unfold join; lia). apply ch_pair; assumption.
    + destruct (unescape e) as [u|] eqn:U; [|discriminate]. apply unescape_iff in U. apply ocons_inv in H as (y & -> & H).
      apply IH in H as (src & -> & CH); [|lia]. exists (92 :: e :: src). split; [reflexivity|]. apply ch_short; assumption.
  - destruct (c <? 32) eqn:C3; [discriminate|]. apply ocons_inv in H as (y & -> & H). apply IH in H as (src & -> & CH); [|lia].
    exists (c :: src). split; [reflexivity|]. apply ch_plain; [lia|lia|lia|exact CH].
Qed.
Lemma scan_chars s x r : scanstring s = Some (x, r) -> exists src, s = src ++ 34 :: r /\ chars src x.
Proof. apply (scan_chars_aux (List.length s)). reflexivity. Qed.

(** ** Numbers *)
Lemma numeral_inv ds n : numeral ds n -> (exists d, d <= 9 /\ ds = [48 + d] /\ n = d) \/
  (exists ds' n' d, numeral ds' n' /\ d <= 9 /\ ds = ds' ++ [48 + d] /\ n = 10 * n' + d).
Proof. intros [d L|ds' n' d N L]; [left; exists d; auto|right; exists ds', n', d; auto]. Qed.
Lemma numeral_iff ds : forall n, numeral ds n <-> all_digits ds /\ nat_value ds = n.
Proof.
  induction ds as [|c ds IH] using rev_ind; intro n.
  - split; [|intros [[E _] _]; congruence]. intro H. apply numeral_inv in H as [(d & _ & E & _)|(ds' & n' & d & _ & _ & E & _)]; [discriminate|].
    destruct ds'; discriminate.
  - split.
    + intro H. apply numeral_inv in H as [(d & L & E & ->)|(ds' & n' & d & N & L & E & ->)].
      * change [48 + d] with ([] ++ [48 + d]) in E. apply app_inj_tail in E as [-> ->]. cbn [app].
        split; [split; [discriminate|constructor; [unfold is_digit; lia|constructor]]|]. unfold nat_value. cbn [fold_left]. lia.
      * apply app_inj_tail in E as [-> ->]. apply IH in N as [[NE F] V]. rewrite nat_value_snoc, V.
        split; [split; [destruct ds'; discriminate|apply Forall_app; split; [exact F|constructor; [unfold is_digit; lia|constructor]]]|lia].
    + intros [[_ F] V]. apply Forall_app in F as [F D]. apply Forall_inv in D. unfold is_digit in D.
      rewrite nat_value_snoc in V. subst n. replace c with (48 + (c - 48)) at 1 by lia. destruct ds as [|c0 ds].
      * cbn [app]. replace (10 * nat_value [] + (c - 48)) with (c - 48) by (cbn [nat_value fold_left]; lia). constructor. lia.
      * apply num_more; [|lia]. apply IH. split; [split; [discriminate|exact F]|reflexivity].
Qed.
Lemma wf_nat_all i : wf_nat i -> all_digits i.
Proof. intros [->|[A _]]; [|exact A]. split; [discriminate|repeat constructor]. Qed.
Lemma whole_iff ds n : whole ds n <-> wf_nat ds /\ nat_value ds = n.
Proof.
  unfold whole. rewrite numeral_iff. split.
  - intros [[A V] [E|E]]; (split; [|exact V]); [left; exact E|right; split; [exact A|exact E]].
  - intros [W V]. split; [split; [exact (wf_nat_all ds W)|exact V]|]. destruct W as [E|[_ E]]; [left; exact E|right; exact E].
Qed.
Lemma fraction_iff f : f = [] \/ fraction f <-> wf_frac f.
Proof.
  unfold fraction, wf_frac. split.
  - intros [E|(ds & n & E & N)]; [left; exact E|]. right. exists ds. split; [exact E|]. apply numeral_iff in N. apply N.
  - intros [E|(ds & E & A)]; [left; exact E|]. right. exists ds, (nat_value ds). split; [exact E|]. apply numeral_iff. auto.
Qed.
Lemma exponent_iff e : e = [] \/ exponent e <-> wf_exp e.
Proof.
  unfold exponent, wf_exp. split.
  - intros [E|(c & g & ds & n & E & C & G & N)]; [left; exact E|]. right. exists c, ds. split; [exact C|]. apply numeral_iff in N. split; [apply N|].
    destruct G as [->|[->| ->]]; [left; exact E|right; exists 43; auto|right; exists 45; auto].
  - intros [E|(c & ds & C & A & E)]; [left; exact E|]. right.
    assert (N : numeral ds (nat_value ds)) by (apply numeral_iff; auto).
    destruct E as [->|(g & G & ->)].
    + exists c, [], ds, (nat_value ds). auto 6.
    + exists c, [g], ds, (nat_value ds). split; [reflexivity|]. split; [exact C|]. split; [|exact N]. destruct G as [->| ->]; auto.
Qed.
Lemma int_value_nat i : wf_nat i -> int_value i = Z.of_N (nat_value i).
Proof. intro W. destruct (wf_nat_head i W) as (c & i' & -> & D). unfold int_value. unfold is_digit in D. replace (c =? 45) with false by lia. reflexivity. Qed.

Definition is_literal (v : json) (w : text) : Prop := In (w, v) literals.
Lemma scalar_iff v w : scalar_text v w <-> number v w \/ is_literal v w.
Proof.
  unfold scalar_text, is_literal. split.
  - intros [(i & f & e & W1 & W2 & W3 & -> & ->)|H]; [|right; exact H]. left. apply fraction_iff in W2. apply exponent_iff in W3.
    destruct (f ++ e) as [|y fe] eqn:FE.
    + rewrite app_nil_r. destruct W1 as [W|(ds & -> & W)].
      * rewrite int_value_nat by exact W. apply n_nat. apply whole_iff. auto.
      * cbn [int_value]. change (45 =? 45) with true. cbn iota. apply n_neg. apply whole_iff. auto.
    + rewrite <- FE. assert (NE : f <> [] \/ e <> []) by (destruct f; [right; cbn in FE; congruence|left; discriminate]).
      destruct W1 as [W|(ds & -> & W)].
      * apply (n_float [] i (nat_value i) f e); [left; reflexivity|apply whole_iff; auto|assumption|assumption|exact NE].
      * apply (n_float [45] ds (nat_value ds) f e); [right; reflexivity|apply whole_iff; auto|assumption|assumption|exact NE].
  - intros [H|H]; [|right; exact H]. left. destruct H as [ds n W|ds n W|m ds n f e M W F E NE]; apply whole_iff in W as [W V].
    + exists ds, [], []. split; [left; exact W|]. split; [left; reflexivity|]. split; [left; reflexivity|]. rewrite app_nil_r. split; [reflexivity|].
      cbn [app]. rewrite int_value_nat by exact W. rewrite V. reflexivity.
    + exists (45 :: ds), [], []. split; [right; eauto|]. split; [left; reflexivity|]. split; [left; reflexivity|]. rewrite app_nil_r. split; [reflexivity|].
      cbn [app int_value]. change (45 =? 45) with true. rewrite V. reflexivity.
    + exists (m ++ ds), f, e. apply fraction_iff in F. apply exponent_iff in E.
      split; [destruct M as [->| ->]; [left; exact W|right; exists ds; auto]|]. split; [exact F|]. split; [exact E|].
      split; [rewrite <- app_assoc; reflexivity|]. destruct (f ++ e) as [|y fe] eqn:FE.
      * apply app_eq_nil in FE as [-> ->]. destruct NE; congruence.
      * rewrite <- app_assoc. reflexivity.
Qed.
Lemma literal_value v w : is_literal v w -> value v w.
Proof. unfold is_literal. cbn [literals In]. intro H. repeat (destruct H as [H|H]; [injection H as <- <-; constructor|]). contradiction. Qed.

(** A value is followed by the end of the text or by one of the delimiters. *)
Definition ends (t : text) : Prop := t = [] \/ starts_delim t.
Lemma scan_scalar_end v w : scalar_text v w -> scan_scalar w = Some (v, []).
Proof.
  intros [(i & f & e & W1 & W2 & W3 & -> & ->)|HI].
  - unfold scan_scalar, scan_number. rewrite scan_int_complete; [|exact W1|].
    + rewrite scan_frac_complete; [|exact W2|].
      * rewrite <- (app_nil_r e) at 1. rewrite scan_exp_complete; [|exact W3|exact I]. destruct (f ++ e); reflexivity.
      * destruct W3 as [->|(x & ds & X & _ & E)]; [exact I|].
        destruct E as [->|(g & _ & ->)]; cbn; (split; [unfold is_digit; lia|lia]).
    + destruct W2 as [->|(ds & -> & _)]; [|reflexivity]. cbn [app].
      destruct W3 as [->|(x & ds & X & _ & E)]; [exact I|].
      destruct E as [->|(g & _ & ->)]; cbn; unfold is_digit; lia.
  - cbn in HI. repeat (destruct HI as [HI|HI]; [injection HI as <- <-; reflexivity|]). contradiction.
Qed.
Lemma scan_scalar_ends v w t : scalar_text v w -> ends t -> scan_scalar (w ++ t) = Some (v, t).
Proof. intros W [->|T]; [rewrite app_nil_r; apply scan_scalar_end; exact W|apply scan_scalar_complete; assumption]. Qed.
Lemma ends_blanks b t : blanks b -> ends t -> ends (b ++ t).
Proof. intros B T. destruct B as [|c b B _]; [exact T|]. right. apply is_ws_blank in B. cbn [app starts_delim]. unfold delim. rewrite B. reflexivity. Qed.
Lemma scalar_pvalue v w t : scalar_text v w -> ends t -> pvalue 1 (w ++ t) = Some (v, t).
Proof.
  intros W T. destruct (scalar_text_head v w W) as (c & w' & -> & H1 & H2 & H3 & _).
  assert (S := scan_scalar_ends v _ t W T). cbn [pvalue app]. replace (c =? 34) with false by lia. replace (c =? 123) with false by lia.
  replace (c =? 91) with false by lia. exact S.
Qed.

(** ** Dictionaries *)
Lemma mkdict_snoc ps p : mkdict (ps ++ [p]) = dset text_eqb (fst p) (snd p) (mkdict ps).
Proof. unfold mkdict. rewrite fold_left_app. reflexivity. Qed.
Lemma dset_new (k : text) (v : json) d : ~ In k (map fst d) -> dset text_eqb k v d = d ++ [(k, v)].
Proof.
  induction d as [|[k' v'] d IH]; intro NI; [reflexivity|]. cbn [dset app]. cbn [map fst In] in NI.
  destruct (text_eqb k k') eqn:E; [apply text_eqb_eq in E; exfalso; apply NI; left; congruence|].
  rewrite IH by tauto. reflexivity.
Qed.
Lemma dset_again (k : text) (v v0 : json) d1 d2 : ~ In k (map fst d1) -> dset text_eqb k v (d1 ++ (k, v0) :: d2) = d1 ++ (k, v) :: d2.
Proof.
  induction d1 as [|[k' v'] d IH]; intro NI; cbn [dset app].
  - replace (text_eqb k k) with true by (symmetry; apply text_eqb_eq; reflexivity). reflexivity.
  - cbn [map fst In] in NI. destruct (text_eqb k k') eqn:E; [apply text_eqb_eq in E; exfalso; apply NI; left; congruence|].
    rewrite IH by tauto. reflexivity.
Qed.
Lemma dict_of_mkdict ps d : dict_of ps d -> d = mkdict ps.
Proof.
  induction 1 as [|ps d k v _ IH NI|ps d1 k v0 d2 v _ IH NI].
  - reflexivity.
  - rewrite mkdict_snoc, <- IH. symmetry. apply dset_new. exact NI.
  - rewrite mkdict_snoc, <- IH. symmetry. apply dset_again. exact NI.
Qed.
Lemma split_at_key (k : text) (d : list (text * json)) : In k (map fst d) -> exists d1 v0 d2, d = d1 ++ (k, v0) :: d2 /\ ~ In k (map fst d1).
Proof.
  induction d as [|[k' v'] d IH]; [contradiction|]. cbn [map fst In]. intro H. destruct (text_eqb k k') eqn:E.
  - apply text_eqb_eq in E. subst k'. exists [], v', d. split; [reflexivity|intros []].
  - assert (NE : k' <> k) by (intro C; subst k'; rewrite (proj2 (text_eqb_eq k k) eq_refl) in E; discriminate).
    destruct H as [H|H]; [congruence|]. destruct (IH H) as (d1 & v0 & d2 & -> & NI). exists ((k', v') :: d1), v0, d2. split; [reflexivity|].
    cbn [map fst In]. tauto.
Qed.
Lemma mkdict_dict_of ps : dict_of ps (mkdict ps).
Proof.
  induction ps as [|[k v] ps IH] using rev_ind; [constructor|]. rewrite mkdict_snoc. cbn [fst snd].
  destruct (in_dec (list_eq_dec N.eq_dec) k (map fst (mkdict ps))) as [HI|NI].
  - apply split_at_key in HI as (d1 & v0 & d2 & E & NI). rewrite E, dset_again by exact NI. rewrite E in IH. exact (d_again ps d1 k v0 d2 v IH NI).
  - rewrite dset_new by exact NI. apply d_new; assumption.
Qed.

(** ** Soundness *)
Lemma parse_sound n :
  (forall s v r, pvalue n s = Some (v, r) -> exists u, s = u ++ r /\ value v u) /\
  (forall s ps r, pmembers n s = Some (ps, r) -> forall b, blanks b -> exists u, b ++ s = u ++ 125 :: r /\ members ps u) /\
  (forall s l r, pelements n s = Some (l, r) -> forall b, blanks b -> exists u, b ++ s = u ++ 93 :: r /\ elements l u).
Proof.
  induction n as [|n (IHv & IHm & IHe)]; [repeat split; discriminate|]. repeat split; intros s v r H.
  - cbn [pvalue] in H. destruct s as [|c s]; [discriminate|].
    destruct (c =? 34) eqn:C1.
    { destruct (scanstring s) as [[x r']|] eqn:S; [|discriminate]. injection H as <- <-. apply scan_chars in S as (src & -> & CH).
      apply N.eqb_eq in C1. subst c. exists (34 :: src ++ [34]). split; [cbn [app]; rewrite <- app_assoc; reflexivity|]. apply v_string. exact CH. }
    destruct (skip_split s) as (b & B & E).
    destruct (c =? 123) eqn:C2.
    { apply N.eqb_eq in C2. subst c. destruct (skip_ws s) as [|c2 s2] eqn:W; [discriminate|].
      destruct (c2 =? 125) eqn:C3.
      - injection H as <- <-. apply N.eqb_eq in C3. subst c2 s. exists (123 :: b ++ [125]). split; [cbn [app]; rewrite <- app_assoc; reflexivity|].
        apply v_obj0. exact B.
      - destruct (pmembers n (c2 :: s2)) as [[ps r']|] eqn:M; [|discriminate]. injection H as <- <-.
        destruct (IHm _ _ _ M b B) as (u & EU & MU). rewrite <- E in EU. subst s. exists (123 :: u ++ [125]).
        split; [cbn [app]; rewrite EU, <- app_assoc; reflexivity|]. apply (v_obj ps); [exact MU|apply mkdict_dict_of]. }
    destruct (c =? 91) eqn:C4.
    { apply N.eqb_eq in C4. subst c. destruct (skip_ws s) as [|c2 s2] eqn:W; [discriminate|].
      destruct (c2 =? 93) eqn:C3.
      - injection H as <- <-. apply N.eqb_eq in C3. subst c2 s. exists (91 :: b ++ [93]). split; [cbn [app]; rewrite <- app_assoc; reflexivity|].
        apply v_list0. exact B.
      - destruct (pelements n (c2 :: s2)) as [[l r']|] eqn:M; [|discriminate]. injection H as <- <-.
        destruct (IHe _ _ _ M b B) as (u & EU & MU). rewrite <- E in EU. subst s. exists (91 :: u ++ [93]).
        split; [cbn [app]; rewrite EU, <- app_assoc; reflexivity|]. apply v_list. exact MU. }
    apply scan_scalar_sound in H as (w & W & ->). exists w. split; [reflexivity|]. apply scalar_iff in W as [W|W]; [apply v_number; exact W|apply literal_value; exact W].
  - intros b0 B0. rewrite pmembers_S in H. unfold mbody in H. destruct s as [|q s]; [discriminate|]. destruct (q =? 34) eqn:Q; [|discriminate].
    apply N.eqb_eq in Q. subst q. destruct (scanstring s) as [[k r0]|] eqn:S; [|discriminate]. apply scan_chars in S as (src & -> & CH).
    destruct (skip_split r0) as (b1 & B1 & E1). destruct (skip_ws r0) as [|col r1]; [discriminate|]. destruct (col =? 58) eqn:C; [|discriminate].
    apply N.eqb_eq in C. subst col r0. destruct (skip_split r1) as (b2 & B2 & E2).
    destruct (pvalue n (skip_ws r1)) as [[x r2]|] eqn:V; [|discriminate]. apply IHv in V as (u & EU & VU). rewrite EU in E2. subst r1. clear EU.
    destruct (skip_split r2) as (b3 & B3 & E3). destruct (skip_ws r2) as [|c r3]; [discriminate|]. subst r2.
    assert (MB : member k x (b0 ++ 34 :: src ++ 34 :: b1 ++ 58 :: b2 ++ u ++ b3)) by (constructor; assumption).
    destruct (c =? 125) eqn:C1.
    + injection H as <- <-. apply N.eqb_eq in C1. subst c. eexists. split; [|apply m_one; exact MB].
      repeat (cbn [app]; rewrite <- ?app_assoc). reflexivity.
    + destruct (c =? 44) eqn:C2; [|discriminate]. apply N.eqb_eq in C2. subst c. destruct (skip_split r3) as (b4 & B4 & E4).
      destruct (pmembers n (skip_ws r3)) as [[ps r4]|] eqn:M; [|discriminate]. injection H as <- <-.
      destruct (IHm _ _ _ M b4 B4) as (w & EW & MW). rewrite <- E4 in EW. subst r3. eexists. split; [|apply m_more; [exact MB|exact MW]].
      repeat (cbn [app]; rewrite <- ?app_assoc). reflexivity.
  - intros b0 B0. rewrite pelements_S in H. unfold ebody in H.
    destruct (pvalue n s) as [[x r2]|] eqn:V; [|discriminate]. apply IHv in V as (u & -> & VU).
    destruct (skip_split r2) as (b3 & B3 & E3). destruct (skip_ws r2) as [|c r3]; [discriminate|]. subst r2.
    destruct (c =? 93) eqn:C1.
    + injection H as <- <-. apply N.eqb_eq in C1. subst c. eexists. split; [|apply (e_one b0 x u b3); assumption].
      repeat (cbn [app]; rewrite <- ?app_assoc). reflexivity.
    + destruct (c =? 44) eqn:C2; [|discriminate]. apply N.eqb_eq in C2. subst c. destruct (skip_split r3) as (b4 & B4 & E4).
      destruct (pelements n (skip_ws r3)) as [[ps r4]|] eqn:M; [|discriminate]. injection H as <- <-.
      destruct (IHe _ _ _ M b4 B4) as (w & EW & MW). rewrite <- E4 in EW. subst r3. eexists. split; [|apply (e_more b0 x u b3); [assumption..|exact MW]].
      repeat (cbn [app]; rewrite <- ?app_assoc). reflexivity.
Qed.

(** ** Completeness *)
Scheme value_mut := Induction for value Sort Prop
  with elements_mut := Induction for elements Sort Prop
  with members_mut := Induction for members Sort Prop
  with member_mut := Induction for member Sort Prop.
Combined Scheme json_text_ind from value_mut, elements_mut, members_mut, member_mut.

Definition good_head (u : text) : Prop := exists c w, u = c :: w /\ is_ws c = false /\ c <> 93 /\ c <> 125.
Lemma scalar_good v w : scalar_text v w -> good_head w.
Proof. intro H. destruct (scalar_text_head v w H) as (c & w' & -> & _ & _ & _ & H1 & H2 & H3). exists c, w'. auto. Qed.
Lemma good_skip b u t : blanks b -> good_head u -> skip_ws (b ++ u ++ t) = u ++ t.
Proof. intros B (c & w & -> & W & _). rewrite skip_blanks by exact B. cbn [app]. apply skip_ws_nows. exact W. Qed.

Lemma parse_complete :
  (forall v u, value v u -> good_head u /\ forall t, ends t -> exists n, pvalue n (u ++ t) = Some (v, t)) /\
  (forall l u, elements l u -> forall t, exists n c w, skip_ws (u ++ 93 :: t) = c :: w /\ c <> 93 /\ pelements n (c :: w) = Some (l, t)) /\
  (forall ps u, members ps u -> forall t, exists n c w, skip_ws (u ++ 125 :: t) = c :: w /\ c <> 125 /\ pmembers n (c :: w) = Some (ps, t)) /\
  (forall k v u, member k v u -> forall c t, (c = 44 \/ c = 125) -> exists n, forall m, (n <= m)%nat -> exists w r0 r1 r2, skip_ws (u ++ c :: t) = 34 :: w /\
     scanstring w = Some (k, r0) /\ skip_ws r0 = 58 :: r1 /\ pvalue m (skip_ws r1) = Some (v, r2) /\ skip_ws r2 = c :: t).
Proof.
  apply json_text_ind.
  - split; [exists 110; eexists; split; [reflexivity|split; [reflexivity|split; discriminate]]|]. intros t T. exists 1%nat. apply scalar_pvalue; [right; cbn; tauto|exact T].
  - split; [exists 116; eexists; split; [reflexivity|split; [reflexivity|split; discriminate]]|]. intros t T. exists 1%nat. apply scalar_pvalue; [right; cbn; tauto|exact T].
  - split; [exists 102; eexists; split; [reflexivity|split; [reflexivity|split; discriminate]]|]. intros t T. exists 1%nat. apply scalar_pvalue; [right; cbn; tauto|exact T].
  - split; [exists 78; eexists; split; [reflexivity|split; [reflexivity|split; discriminate]]|]. intros t T. exists 1%nat. apply scalar_pvalue; [right; cbn; tauto|exact T].
  - split; [exists 73; eexists; split; [reflexivity|split; [reflexivity|split; discriminate]]|]. intros t T. exists 1%nat. apply scalar_pvalue; [right; cbn; tauto|exact T].
  - split; [exists 45; eexists; split; [reflexivity|split; [reflexivity|split; discriminate]]|]. intros t T. exists 1%nat. apply scalar_pvalue; [right; cbn; tauto|exact T].
  - intros v u N. assert (W : scalar_text v u) by (apply scalar_iff; left; exact N). split; [exact (scalar_good v u W)|].
    intros t T. exists 1%nat. apply scalar_pvalue; assumption.
  - intros s x CH. split; [exists 34; eexists; split; [reflexivity|split; [reflexivity|split; discriminate]]|]. intros t _. exists 1%nat.
    cbn [app pvalue]. rewrite <- app_assoc. cbn [app]. change (34 =? 34) with true. cbn iota. rewrite (chars_scan s x CH). reflexivity.
  - intros b B. split; [exists 91; eexists; split; [reflexivity|split; [reflexivity|split; discriminate]]|]. intros t _. exists 1%nat.
    cbn [app pvalue]. rewrite <- app_assoc, (skip_blanks _ _ B). reflexivity.
  - intros l u _ IH. split; [exists 91; eexists; split; [reflexivity|split; [reflexivity|split; discriminate]]|]. intros t _.
    destruct (IH t) as (n & c & w & E & NE & P). exists (S n). cbn [app pvalue]. rewrite <- app_assoc. cbn [app]. rewrite E.
    change (91 =? 34) with false. change (91 =? 123) with false. change (91 =? 91) with true. replace (c =? 93) with false by lia. rewrite P. reflexivity.
  - intros b B. split; [exists 123; eexists; split; [reflexivity|split; [reflexivity|split; discriminate]]|]. intros t _. exists 1%nat.
    cbn [app pvalue]. rewrite <- app_assoc, (skip_blanks _ _ B). reflexivity.
  - intros ps d u _ IH D. split; [exists 123; eexists; split; [reflexivity|split; [reflexivity|split; discriminate]]|]. intros t _.
    destruct (IH t) as (n & c & w & E & NE & P). exists (S n). cbn [app pvalue]. rewrite <- app_assoc. cbn [app]. rewrite E.
    change (123 =? 34) with false. change (123 =? 123) with true. replace (c =? 125) with false by lia. rewrite P. rewrite (dict_of_mkdict ps d D). reflexivity.
  - intros b v u b' B _ [G IH] B' t. destruct (IH (b' ++ 93 :: t)) as (n & P); [apply ends_blanks; [exact B'|right; reflexivity]|].
    destruct G as (c & w & -> & W & N1 & N2). exists (S n). eexists c, _. split.
    { rewrite <- !app_assoc. rewrite skip_blanks by exact B. cbn [app]. apply skip_ws_nows. exact W. }
    split; [exact N1|]. rewrite pelements_S. unfold ebody. cbn [app] in P. rewrite P, skip_blanks by exact B'. reflexivity.
  - intros b v u b' l w0 B _ [G IH] B' _ IHl t.
    destruct (IHl t) as (n1 & c1 & w1 & E1 & _ & P1).
    destruct (IH (b' ++ 44 :: w0 ++ 93 :: t)) as (n & P); [apply ends_blanks; [exact B'|right; reflexivity]|].
    destruct G as (c & w & -> & W & N1 & N2). exists (S (Nat.max n n1)). eexists c, _. split.
    { rewrite <- !app_assoc. rewrite skip_blanks by exact B. cbn [app]. apply skip_ws_nows. exact W. }
    split; [exact N1|]. rewrite pelements_S. unfold ebody. cbn [app] in P. rewrite (fuel_mono n _ _ _ (Nat.le_max_l _ _) P), skip_blanks by exact B'. cbn [skip_ws]. change (is_ws 44) with false. cbn iota.
    change (44 =? 93) with false. change (44 =? 44) with true. cbn iota. rewrite E1, (fuel_mono_e n1 _ _ _ (Nat.le_max_r _ _) P1). reflexivity.
  - intros k v u _ IH t. destruct (IH 125 t (or_intror eq_refl)) as (n & F). destruct (F n (le_n n)) as (w & r0 & r1 & r2 & E & SC & C & V & D).
    exists (S n), 34, w. split; [exact E|]. split; [discriminate|]. rewrite pmembers_S. unfold mbody. change (34 =? 34) with true. cbn iota.
    rewrite SC, C. change (58 =? 58) with true. cbn iota. rewrite V, D. reflexivity.
  - intros k v u ps w0 _ IH _ IHm t. destruct (IHm t) as (n1 & c1 & w1 & E1 & _ & P1).
    destruct (IH 44 (w0 ++ 125 :: t) (or_introl eq_refl)) as (n & F).
    destruct (F (Nat.max n n1) (Nat.le_max_l _ _)) as (w & r0 & r1 & r2 & E & SC & C & V & D).
    exists (S (Nat.max n n1)), 34, w. split; [rewrite <- app_assoc; exact E|]. split; [discriminate|]. rewrite pmembers_S. unfold mbody. change (34 =? 34) with true. cbn iota.
    rewrite SC, C. change (58 =? 58) with true. cbn iota. rewrite V, D. change (44 =? 125) with false. change (44 =? 44) with true. cbn iota.
    rewrite E1, (fuel_mono_m n1 _ _ _ (Nat.le_max_r _ _) P1). reflexivity.
  - intros b s k b1 b2 v u b' B CH B1 B2 _ [G IH] B' c t C.
    destruct (IH (b' ++ c :: t)) as (n & P); [apply ends_blanks; [exact B'|right; destruct C as [->| ->]; reflexivity]|].
    exists n. intros m LE. exists (s ++ 34 :: b1 ++ 58 :: b2 ++ u ++ b' ++ c :: t), (b1 ++ 58 :: b2 ++ u ++ b' ++ c :: t), (b2 ++ u ++ b' ++ c :: t), (b' ++ c :: t).
    split; [repeat (rewrite <- ?app_assoc; cbn [app]); rewrite skip_blanks by exact B; reflexivity|].
    split; [apply chars_scan; exact CH|]. split; [rewrite skip_blanks by exact B1; reflexivity|].
    split; [rewrite good_skip by assumption; exact (fuel_mono n m _ _ LE P)|]. rewrite skip_blanks by exact B'. destruct C as [->| ->]; reflexivity.
Qed.

(** ** The whole text *)
Lemma loads_document t v : loads t = Ok v <-> document v t.
Proof.
  unfold loads, document. split.
  - destruct (pvalue _ (skip_ws t)) as [[x r]|] eqn:P; [|discriminate]. intro H.
    destruct (parse_sound (2 * List.length t + 2)) as (SV & _). apply SV in P as (u & E & V).
    destruct (skip_split t) as (b & B & ET). destruct (skip_split r) as (b' & B' & ER). destruct (skip_ws r); [|discriminate].
    injection H as ->. rewrite app_nil_r in ER. subst r. exists b, u, b'. rewrite <- E. auto.
  - intros (b & u & b' & B & V & B' & ->). destruct parse_complete as (CV & _). destruct (CV v u V) as [G IH].
    rewrite good_skip by assumption. destruct (IH b') as (n & P); [rewrite <- (app_nil_r b'); apply ends_blanks; [exact B'|left; reflexivity]|].
    set (m := (2 * List.length (b ++ u ++ b') + 2)%nat).
    assert (LE : (2 * List.length (u ++ b') + 1 <= m)%nat) by (unfold m; rewrite (app_length b); lia).
    rewrite (fuel_irrelevant _ m LE). rewrite <- (fuel_irrelevant (u ++ b') (Nat.max n m)); [|lia].
    rewrite (fuel_mono n _ _ _ (Nat.le_max_l _ _) P), skip_all by exact B'. reflexivity.
Qed.

Lemma loads_outcome t : (exists v, loads t = Ok v) \/ loads t = Err JSONDecodeError.
Proof.
  unfold loads. destruct (pvalue _ (skip_ws t)) as [[x r]|]; [|right; reflexivity]. destruct (skip_ws r); [left; eauto|right; reflexivity].
Qed.
Lemma loads_rejects t : loads t = Err JSONDecodeError <-> forall v, ~ document v t.
Proof.
  split.
  - intros H v D. apply loads_document in D. congruence.
  - intro H. destruct (loads_outcome t) as [[v E]|E]; [|exact E]. apply loads_document in E. destruct (H v E).
Qed.
Lemma document_unique t v v' : document v t -> document v' t -> v = v'.
Proof. intros D D'. apply loads_document in D, D'. congruence. Qed.
