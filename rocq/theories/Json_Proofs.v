(** * JSON text: reading back what was written, reading prefixes *)
From Verif Require Import PyBase Json_Model.
From Coq Require Import Ascii ZifyN ZifyBool.
Open Scope N_scope.
Ltac Zify.zify_post_hook ::= Z.div_mod_to_equations.

Lemma text_eqb_eq a : forall b, text_eqb a b = true <-> a = b.
Proof.
  induction a as [|x a IH]; destruct b as [|y b]; cbn [text_eqb]; split; intro H; try discriminate; try reflexivity.
  - apply andb_prop in H as [H1 H2]. apply N.eqb_eq in H1. apply IH in H2. congruence.
  - injection H as -> ->. rewrite N.eqb_refl. apply IH. reflexivity.
Qed.

(** ** White space *)
Lemma skip_ws_len s : (List.length (skip_ws s) <= List.length s)%nat.
Proof. induction s as [|c s IH]; [reflexivity|]. cbn [skip_ws]. destruct (is_ws c); cbn [List.length]; lia. Qed.

Lemma skip_ws_ext p q c r : skip_ws p = c :: r -> skip_ws (p ++ q) = c :: r ++ q.
Proof.
  induction p as [|x p IH]; cbn [skip_ws app]; [discriminate|]. destruct (is_ws x); [exact IH|].
  intro H. injection H as -> ->. reflexivity.
Qed.

Lemma skip_ws_nows c r : is_ws c = false -> skip_ws (c :: r) = c :: r.
Proof. intro H. cbn [skip_ws]. rewrite H. reflexivity. Qed.

Lemma skip_ws_head s c r : skip_ws s = c :: r -> is_ws c = false.
Proof.
  induction s as [|x s IH]; cbn [skip_ws]; [discriminate|]. destruct (is_ws x) eqn:E; [exact IH|].
  intro H. injection H as -> _. exact E.
Qed.

Lemma skip_newline k t : skip_ws (newline k ++ t) = skip_ws t.
Proof.
  unfold newline. cbn [app]. change (skip_ws (10 :: repeat 32 (4 * k) ++ t)) with (skip_ws (repeat 32 (4 * k) ++ t)).
  induction (4 * k)%nat as [|m IH]; [reflexivity|]. exact IH.
Qed.

(** ** Strings *)
Lemma ocons_inv c o x r : ocons c o = Some (x, r) -> exists y, x = c :: y /\ o = Some (y, r).
Proof. destruct o as [[y r']|]; cbn; [|discriminate]. intro H. injection H as <- <-. eauto. Qed.

Ltac str_case :=
  match goal with
  | H : context [match ?s with [] => _ | _ :: _ => _ end] |- _ => destruct s; try discriminate
  | H : context [if ?b then _ else _] |- _ => let E := fresh "E" in destruct b eqn:E; try discriminate
  | H : context [match unhex4 ?a ?b ?c ?d with _ => _ end] |- _ => let E := fresh "U" in destruct (unhex4 a b c d) eqn:E; try discriminate
  | H : context [match unescape ?a with _ => _ end] |- _ => let E := fresh "U" in destruct (unescape a) eqn:E; try discriminate
  end.

Lemma scanstring_len_aux m : forall s x r, (List.length s <= m)%nat -> scanstring s = Some (x, r) -> (List.length r < List.length s)%nat.
Proof.
  induction m as [|m IH]; intros s x r L H; destruct s as [|c s]; try (cbn in H; discriminate); [cbn in L; lia|].
  cbn [scanstring] in H. cbn [List.length] in L |- *.
  repeat first [ apply ocons_inv in H as (? & _ & H); apply IH in H; cbn [List.length] in *; lia
               | injection H as <- <-; cbn [List.length] in *; lia
               | str_case ].
Qed.
Lemma scanstring_len s x r : scanstring s = Some (x, r) -> (List.length r < List.length s)%nat.
Proof. intro H. eapply scanstring_len_aux; [reflexivity|exact H]. Qed.

Lemma scanstring_short_u s : (List.length s < 6)%nat -> forall s', s = 92 :: 117 :: s' -> scanstring s = None.
Proof.
  intros L s' ->. cbn [List.length] in L.
  destruct s' as [|a [|b [|c [|d s']]]]; try reflexivity. cbn [List.length] in L. lia.
Qed.

Lemma scanstring_ext_aux m : forall p x r q, (List.length p <= m)%nat -> scanstring p = Some (x, r) -> scanstring (p ++ q) = Some (x, r ++ q).
Proof.
  induction m as [|m IH]; intros p x r q L H; destruct p as [|c p]; try (cbn in H; discriminate); [cbn in L; lia|].
  cbn [List.length] in L. cbn [app scanstring] in H |- *.
  destruct (c =? 34); [injection H as <- <-; reflexivity|].
  destruct (c =? 92).
  - destruct p as [|e p]; [discriminate|]. cbn [app]. cbn [List.length] in L. destruct (e =? 117).
    + destruct p as [|h1 [|h2 [|h3 [|h4 p]]]]; try discriminate. cbn [app] in *. cbn [List.length] in L.
      destruct (unhex4 h1 h2 h3 h4) as [u|]; [|discriminate].
      assert (STEP : ocons u (scanstring p) = Some (x, r) -> ocons u (scanstring (p ++ q)) = Some (x, r ++ q)).
      { intro H'. apply ocons_inv in H' as (y & -> & H'). rewrite (IH p y r q ltac:(lia) H'). reflexivity. }
      destruct (is_high u); [|exact (STEP H)].
      destruct (le_lt_dec 6 (List.length p)) as [GE|LT].
      * destruct p as [|b1 [|u1 [|a2 [|b2 [|c2 [|d2 p]]]]]]; try (cbn [List.length] in GE; lia). cbn [app] in *. cbn [List.length] in *.
        destruct ((b1 =? 92) && (u1 =? 117)); [|exact (STEP H)].
        destruct (unhex4 a2 b2 c2 d2) as [u2|]; [|exact (STEP H)]. destruct (is_low u2); [|exact (STEP H)].
        apply ocons_inv in H as (y & -> & H). rewrite (IH p y r q ltac:(lia) H). reflexivity.
      * assert (H' : ocons u (scanstring p) = Some (x, r)).
        { destruct p as [|b1 [|u1 [|a2 [|b2 [|c2 [|d2 p]]]]]]; try exact H. cbn [List.length] in LT. lia. }
        apply STEP in H'. destruct (p ++ q) as [|b1 [|u1 [|a2 [|b2 [|c2 [|d2 pq]]]]]] eqn:PQ; try exact H'.
        destruct ((b1 =? 92) && (u1 =? 117)) eqn:BU; [|exact H'].
        exfalso. apply andb_prop in BU as [B U]. apply N.eqb_eq in B, U. subst b1 u1.
        assert (H2 : ocons u (scanstring p) = Some (x, r)).
        { destruct p as [|b1 [|u1 [|a3 [|b3 [|c3 [|d3 p]]]]]]; try exact H. cbn [List.length] in LT. lia. }
        apply ocons_inv in H2 as (y & _ & H2).
        destruct p as [|b1 [|u1 p]].
        -- discriminate H2.
        -- cbn in PQ. injection PQ as -> _. cbn in H2. discriminate.
        -- cbn in PQ. injection PQ as -> -> _. erewrite scanstring_short_u in H2; [discriminate|exact LT|reflexivity].
    + destruct (unescape e) as [u|]; [|discriminate]. apply ocons_inv in H as (y & -> & H). rewrite (IH p y r q ltac:(lia) H). reflexivity.
  - destruct (c <? 32); [discriminate|]. apply ocons_inv in H as (y & -> & H). rewrite (IH p y r q ltac:(lia) H). reflexivity.
Qed.
Lemma scanstring_ext p x r q : scanstring p = Some (x, r) -> scanstring (p ++ q) = Some (x, r ++ q).
Proof. intro H. eapply scanstring_ext_aux; [reflexivity|exact H]. Qed.

(** *** Writing strings and reading them back *)
Lemma unhex_hexd n : n < 16 -> unhex (hexd n) = Some n.
Proof.
  intro H. unfold hexd, unhex. destruct (n <? 10) eqn:E.
  - replace ((48 <=? 48 + n) && (48 + n <=? 57)) with true by lia. f_equal. lia.
  - replace ((48 <=? 87 + n) && (87 + n <=? 57)) with false by lia.
    replace ((97 <=? 87 + n) && (87 + n <=? 102)) with true by lia. f_equal. lia.
Qed.
Lemma unhex4_hex4 u : u < 65536 ->
  unhex4 (hexd (u / 4096)) (hexd (u / 256 mod 16)) (hexd (u / 16 mod 16)) (hexd (u mod 16)) = Some u.
Proof.
  intro H. unfold unhex4. rewrite !unhex_hexd by lia. f_equal. lia.
Qed.

Fixpoint wf_chars (s : text) : Prop :=
  match s with
  | [] => True
  | c :: s' => c < 1114112 /\ (is_high c = true -> match s' with c' :: _ => is_low c' = false | [] => True end) /\ wf_chars s'
  end.

(** \u followed by a low surrogate's digits. *)
Definition low_escape (s : text) : bool :=
  match s with
  | b1 :: u1 :: a2 :: b2 :: c2 :: d2 :: _ =>
      (b1 =? 92) && (u1 =? 117) && match unhex4 a2 b2 c2 d2 with Some u2 => is_low u2 | None => false end
  | _ => false
  end.

Lemma scan_uesc u s : u < 65536 -> (is_high u = true -> low_escape s = false) ->
  scanstring (uesc u ++ s) = ocons u (scanstring s).
Proof.
  intros H HL. unfold uesc, hex4. cbn [app scanstring]. change (92 =? 34) with false. change (92 =? 92) with true.
  change (117 =? 117) with true. cbn [orb]. rewrite unhex4_hex4 by exact H.
  destruct (is_high u); [|reflexivity]. specialize (HL eq_refl). unfold low_escape in HL.
  destruct s as [|b1 [|u1 [|a2 [|b2 [|c2 [|d2 s]]]]]]; try reflexivity.
  destruct ((b1 =? 92) && (u1 =? 117)); [|reflexivity]. cbn [andb] in HL.
  destruct (unhex4 a2 b2 c2 d2) as [u2|]; [|reflexivity]. rewrite HL. reflexivity.
Qed.

Lemma scan_pair hi lo s : is_high hi = true -> is_low lo = true ->
  scanstring (uesc hi ++ uesc lo ++ s) = ocons (join hi lo) (scanstring s).
Proof.
  intros H L. unfold uesc, hex4. cbn [app scanstring]. change (92 =? 34) with false. change (92 =? 92) with true.
  change (117 =? 117) with true. cbn [andb orb].
  unfold is_high in H. unfold is_low in L.
  rewrite !unhex4_hex4 by lia. unfold is_high. rewrite H. unfold is_low. rewrite L. reflexivity.
Qed.

Lemma scan_enc_char c s : c < 1114112 -> (is_high c = true -> low_escape s = false) ->
  scanstring (enc_char c ++ s) = ocons c (scanstring s).
Proof.
  intros H HL. unfold enc_char.
  destruct (c =? 34) eqn:E1; [apply N.eqb_eq in E1; subst c; reflexivity|].
  destruct (c =? 92) eqn:E2; [apply N.eqb_eq in E2; subst c; reflexivity|].
  destruct ((32 <=? c) && (c <=? 126)) eqn:E3.
  { cbn [app scanstring]. rewrite E1, E2. replace (c <? 32) with false by lia. reflexivity. }
  destruct (c =? 10) eqn:E4; [apply N.eqb_eq in E4; subst c; reflexivity|].
  destruct (c =? 13) eqn:E5; [apply N.eqb_eq in E5; subst c; reflexivity|].
  destruct (c =? 9) eqn:E6; [apply N.eqb_eq in E6; subst c; reflexivity|].
  destruct (c =? 12) eqn:E7; [apply N.eqb_eq in E7; subst c; reflexivity|].
  destruct (c =? 8) eqn:E8; [apply N.eqb_eq in E8; subst c; reflexivity|].
  destruct (c <? 65536) eqn:E9; [apply scan_uesc; [lia|exact HL]|].
  rewrite <- app_assoc, scan_pair.
  - f_equal. unfold join. lia.
  - unfold is_high. lia.
  - unfold is_low. lia.
Qed.

Lemma low_escape_quote r : low_escape (34 :: r) = false.
Proof. destruct r as [|? [|? [|? [|? [|? ?]]]]]; reflexivity. Qed.

Lemma low_escape_enc_char c s : is_low c = false -> c < 1114112 -> low_escape (enc_char c ++ s) = false.
Proof.
  intros L H. unfold enc_char.
  destruct (c =? 34); [destruct s as [|? [|? [|? [|? ?]]]]; reflexivity|].
  destruct (c =? 92) eqn:E2; [destruct s as [|? [|? [|? [|? ?]]]]; reflexivity|].
  destruct ((32 <=? c) && (c <=? 126)) eqn:E3.
  { destruct s as [|? [|? [|? [|? [|? ?]]]]]; cbn [app low_escape]; try reflexivity. rewrite E2. reflexivity. }
  destruct (c =? 10); [destruct s as [|? [|? [|? [|? ?]]]]; reflexivity|].
  destruct (c =? 13); [destruct s as [|? [|? [|? [|? ?]]]]; reflexivity|].
  destruct (c =? 9); [destruct s as [|? [|? [|? [|? ?]]]]; reflexivity|].
  destruct (c =? 12); [destruct s as [|? [|? [|? [|? ?]]]]; reflexivity|].
  destruct (c =? 8); [destruct s as [|? [|? [|? [|? ?]]]]; reflexivity|].
  destruct (c <? 65536) eqn:E9.
  - unfold uesc, hex4. cbn [app low_escape]. rewrite unhex4_hex4 by lia. rewrite L. reflexivity.
  - unfold uesc, hex4. cbn [app low_escape]. rewrite unhex4_hex4 by lia.
    replace (is_low _) with false; [reflexivity|]. unfold is_low. lia.
Qed.

Lemma scan_enc_chars s r : wf_chars s -> scanstring (enc_chars s ++ 34 :: r) = Some (s, r).
Proof.
  induction s as [|c s IH]; [reflexivity|]. intros (H1 & H2 & H3). unfold enc_chars. cbn [flat_map].
  rewrite <- app_assoc. rewrite scan_enc_char; [fold (enc_chars s); rewrite (IH H3); reflexivity|exact H1|].
  intro HH. specialize (H2 HH). destruct s as [|c' s]; [apply low_escape_quote|].
  cbn [flat_map]. rewrite <- app_assoc. apply low_escape_enc_char; [exact H2|]. cbn in H3. tauto.
Qed.

(** *** What reading yields *)
Definition valid_char (c : N) : Prop := c < 1114112 /\ is_high c = false /\ is_low c = false.

Lemma unhex_bound c u : unhex c = Some u -> u < 16.
Proof.
  unfold unhex. intro H. repeat match type of H with context [if ?b then _ else _] => destruct b eqn:? end;
    try discriminate; injection H as <-; lia.
Qed.
Lemma unhex4_bound a b c d u : unhex4 a b c d = Some u -> u < 65536.
Proof.
  unfold unhex4. intro H. destruct (unhex a) as [x|] eqn:Ea; [|discriminate]. destruct (unhex b) as [y|] eqn:Eb; [|discriminate].
  destruct (unhex c) as [z|] eqn:Ec; [|discriminate]. destruct (unhex d) as [w|] eqn:Ed; [|discriminate].
  apply unhex_bound in Ea, Eb, Ec, Ed. injection H as <-. lia.
Qed.
Lemma unescape_small e u : unescape e = Some u -> u < 128.
Proof.
  unfold unescape. intro H. destruct ((e =? 34) || (e =? 92) || (e =? 47)) eqn:E; [injection H as <-; lia|].
  repeat match type of H with context [if ?b then _ else _] => destruct b end; try discriminate; injection H as <-; lia.
Qed.

(** A result starting with a low surrogate comes from an escape. *)
Lemma first_low s c x r : Forall valid_char s -> scanstring s = Some (c :: x, r) -> is_low c = true -> low_escape s = true.
Proof.
  intros V H L. destruct s as [|b s]; [discriminate|]. cbn [scanstring] in H.
  destruct (b =? 34) eqn:E; [discriminate|]. destruct (b =? 92) eqn:B.
  - destruct s as [|e s]; [discriminate|]. destruct (e =? 117) eqn:EU.
    + destruct s as [|h1 [|h2 [|h3 [|h4 s]]]]; try discriminate. cbn [low_escape]. rewrite B, EU. cbn [andb].
      destruct (unhex4 h1 h2 h3 h4) as [u|] eqn:U; [|discriminate].
      destruct (is_high u) eqn:HU.
      * exfalso. assert (C : c = u \/ exists u2, is_low u2 = true /\ c = join u u2).
        { repeat first [ apply ocons_inv in H as (? & C & _); injection C as -> _;
                         first [left; reflexivity | right; eexists; split; [|reflexivity]; assumption] | str_case ]. }
        destruct C as [->|(u2 & L2 & ->)]; unfold is_low, is_high, join in *; lia.
      * apply ocons_inv in H as (? & C & _). injection C as <- _. exact L.
    + destruct (unescape e) as [u|] eqn:U; [|discriminate]. apply unescape_small in U.
      apply ocons_inv in H as (? & C & _). injection C as <- _. unfold is_low in L. lia.
  - destruct (b <? 32); [discriminate|]. apply ocons_inv in H as (? & C & _). injection C as <- _.
    apply Forall_inv in V. destruct V as (_ & _ & V). congruence.
Qed.

Lemma scanstring_wf_aux m : forall s x r, (List.length s <= m)%nat -> Forall valid_char s -> scanstring s = Some (x, r) ->
  wf_chars x /\ Forall valid_char r.
Proof.
  induction m as [|m IH]; intros s x r L V H; destruct s as [|c s]; try (cbn in H; discriminate); [cbn in L; lia|].
  cbn [List.length] in L. cbn [scanstring] in H. inversion V as [|? ? Vc Vs]; subst.
  destruct (c =? 34); [injection H as <- <-; split; [exact I|exact Vs]|].
  assert (LOW : forall s' u y, (List.length s' <= m)%nat -> Forall valid_char s' -> u < 1114112 -> scanstring s' = Some (y, r) ->
     (is_high u = true -> low_escape s' = false) -> wf_chars (u :: y) /\ Forall valid_char r).
  { intros s' u y L' V' B S' HH. destruct (IH s' y r L' V' S') as [W1 W2]. split; [|exact W2]. split; [exact B|]. split; [|exact W1].
    intro HU. specialize (HH HU). destruct y as [|c' y]; [exact I|]. destruct (is_low c') eqn:LC; [|reflexivity].
    rewrite (first_low s' c' y r V' S' LC) in HH. discriminate. }
  destruct (c =? 92).
  - destruct s as [|e s]; [discriminate|]. cbn [List.length] in L. inversion Vs as [|? ? Ve Vs']; subst. destruct (e =? 117).
    + destruct s as [|h1 [|h2 [|h3 [|h4 s]]]]; try discriminate. cbn [List.length] in L.
      assert (V4 : Forall valid_char s) by (repeat (match goal with V : Forall valid_char (_ :: _) |- _ => apply Forall_inv_tail in V end); assumption).
      destruct (unhex4 h1 h2 h3 h4) as [u|] eqn:U; [|discriminate]. apply unhex4_bound in U.
      assert (STEP : ocons u (scanstring s) = Some (x, r) -> (is_high u = true -> low_escape s = false) -> wf_chars x /\ Forall valid_char r).
      { intros H' HH. apply ocons_inv in H' as (y & -> & H'). eapply LOW; [|exact V4|lia|exact H'|exact HH]. lia. }
      destruct (is_high u) eqn:HU; [|apply STEP; [exact H|discriminate]].
      destruct s as [|b1 [|u1 [|a2 [|b2 [|c2 [|d2 s]]]]]]; try (apply STEP; [exact H|reflexivity]).
      destruct ((b1 =? 92) && (u1 =? 117)) eqn:BU; [|apply STEP; [exact H|intros _; cbn [low_escape]; rewrite BU; reflexivity]].
      destruct (unhex4 a2 b2 c2 d2) as [u2|] eqn:U2; [|apply STEP; [exact H|intros _; cbn [low_escape]; rewrite BU, U2; reflexivity]].
      destruct (is_low u2) eqn:LU; [|apply STEP; [exact H|intros _; cbn [low_escape]; rewrite BU, U2; exact LU]].
      apply ocons_inv in H as (y & -> & H). cbn [List.length] in L.
      eapply (LOW s); [lia|repeat (match goal with V : Forall valid_char (_ :: _) |- _ => apply Forall_inv_tail in V end); assumption| |exact H|].
      * unfold join, is_high, is_low in *. lia.
      * unfold join, is_high, is_low in *. lia.
    + destruct (unescape e) as [u|] eqn:U; [|discriminate]. apply unescape_small in U.
      apply ocons_inv in H as (y & -> & H). eapply (LOW s); [lia|exact Vs'|lia|exact H|]. unfold is_high. lia.
  - destruct (c <? 32); [discriminate|]. apply ocons_inv in H as (y & -> & H).
    destruct Vc as (V1 & V2 & V3). eapply (LOW s); [lia|exact Vs|exact V1|exact H|]. congruence.
Qed.
Lemma scanstring_wf s x r : Forall valid_char s -> scanstring s = Some (x, r) -> wf_chars x /\ Forall valid_char r.
Proof. apply (scanstring_wf_aux (List.length s)). reflexivity. Qed.

(** ** Numbers and literals *)
Definition delim (c : N) : bool := is_ws c || (c =? 44) || (c =? 93) || (c =? 125).
Definition starts_delim (t : text) : Prop := match t with c :: _ => delim c = true | [] => False end.
Definition all_digits (ds : text) : Prop := ds <> [] /\ Forall (fun c => is_digit c = true) ds.
Definition wf_nat (ds : text) : Prop := ds = [48] \/ (all_digits ds /\ hd 0 ds <> 48).
Definition wf_int (i : text) : Prop := wf_nat i \/ exists ds, i = 45 :: ds /\ wf_nat ds.
Definition wf_frac (f : text) : Prop := f = [] \/ exists ds, f = 46 :: ds /\ all_digits ds.
Definition wf_exp (e : text) : Prop :=
  e = [] \/ exists c ds, (c = 101 \/ c = 69) /\ all_digits ds /\ (e = c :: ds \/ exists g, (g = 43 \/ g = 45) /\ e = c :: g :: ds).

Lemma span_sound s : forall a r, span_digits s = (a, r) -> s = a ++ r /\ Forall (fun c => is_digit c = true) a.
Proof.
  induction s as [|c s IH]; intros a r H; cbn [span_digits] in H.
  - injection H as <- <-. split; [reflexivity|constructor].
  - destruct (is_digit c) eqn:D.
    + destruct (span_digits s) as [a' r'] eqn:E. injection H as <- <-. destruct (IH a' r' eq_refl) as [-> F].
      split; [reflexivity|constructor; assumption].
    + injection H as <- <-. split; [reflexivity|constructor].
Qed.
Lemma span_complete ds t : Forall (fun c => is_digit c = true) ds -> match t with c :: _ => is_digit c = false | [] => True end ->
  span_digits (ds ++ t) = (ds, t).
Proof.
  intros F T. induction F as [|c ds D F IH]; cbn [app span_digits].
  - destruct t as [|c t]; [reflexivity|]. cbn [span_digits]. rewrite T. reflexivity.
  - rewrite D, IH. reflexivity.
Qed.

Lemma scan_nat_sound s i r : scan_nat s = Some (i, r) -> s = i ++ r /\ wf_nat i.
Proof.
  destruct s as [|c s]; cbn [scan_nat]; [discriminate|]. destruct (c =? 48) eqn:Z.
  - intro H. injection H as <- <-. apply N.eqb_eq in Z. subst c. split; [reflexivity|left; reflexivity].
  - destruct (is_digit c) eqn:D; [|discriminate]. intro H. injection H as H.
    destruct (span_sound (c :: s) _ _ H) as [E F]. split; [exact E|]. right.
    cbn [span_digits] in H. rewrite D in H. destruct (span_digits s) as [a b]. injection H as <- _.
    split; [split; [discriminate|exact F]|]. cbn. intro C. subst c. discriminate.
Qed.
Lemma scan_nat_complete i t : wf_nat i -> match t with c :: _ => is_digit c = false | [] => True end -> scan_nat (i ++ t) = Some (i, t).
Proof.
  intros [->|[[NE F] H]] T; [reflexivity|]. destruct i as [|c i]; [congruence|]. cbn [app scan_nat hd] in *.
  replace (c =? 48) with false by lia. rewrite (Forall_inv F). f_equal. apply (span_complete (c :: i)); assumption.
Qed.
Lemma wf_nat_head i : wf_nat i -> exists c i', i = c :: i' /\ is_digit c = true.
Proof.
  intros [->|[[NE F] _]]; [exists 48, []; split; reflexivity|]. destruct i as [|c i]; [congruence|]. exists c, i.
  split; [reflexivity|]. exact (Forall_inv F).
Qed.
Lemma scan_int_sound s i r : scan_int s = Some (i, r) -> s = i ++ r /\ wf_int i.
Proof.
  destruct s as [|c s]; cbn [scan_int]; [discriminate|]. destruct (c =? 45) eqn:M.
  - destruct (scan_nat s) as [[j r']|] eqn:E; [|discriminate]. intro H. injection H as <- <-.
    apply scan_nat_sound in E as [-> W]. apply N.eqb_eq in M. subst c. split; [reflexivity|right; eauto].
  - intro H. apply scan_nat_sound in H as [E W]. split; [exact E|left; exact W].
Qed.
Lemma scan_int_complete i t : wf_int i -> match t with c :: _ => is_digit c = false | [] => True end -> scan_int (i ++ t) = Some (i, t).
Proof.
  intros [W|(ds & -> & W)] T.
  - destruct (wf_nat_head i W) as (c & i' & -> & D). cbn [app scan_int]. unfold is_digit in D. replace (c =? 45) with false by lia.
    apply (scan_nat_complete (c :: i')); assumption.
  - cbn [app scan_int]. change (45 =? 45) with true. rewrite (scan_nat_complete ds t W T). reflexivity.
Qed.
Lemma scan_frac_sound s f r : scan_frac s = (f, r) -> s = f ++ r /\ wf_frac f.
Proof.
  destruct s as [|c s]; cbn [scan_frac]; [intro H; injection H as <- <-; split; [reflexivity|left; reflexivity]|].
  destruct (c =? 46) eqn:P; [|intro H; injection H as <- <-; split; [reflexivity|left; reflexivity]].
  destruct (span_digits s) as [[|d ds] r'] eqn:E; [intro H; injection H as <- <-; split; [reflexivity|left; reflexivity]|].
  intro H. injection H as <- <-. apply span_sound in E as [-> F]. apply N.eqb_eq in P. subst c. split; [reflexivity|].
  right. eexists. split; [reflexivity|split; [discriminate|exact F]].
Qed.
Lemma scan_frac_complete f t : wf_frac f -> match t with c :: _ => is_digit c = false /\ c <> 46 | [] => True end -> scan_frac (f ++ t) = (f, t).
Proof.
  intros [->|(ds & -> & NE & F)] T.
  - destruct t as [|c t]; [reflexivity|]. cbn [app scan_frac]. replace (c =? 46) with false by (destruct T; lia). reflexivity.
  - cbn [app scan_frac]. change (46 =? 46) with true. rewrite span_complete; [|exact F|destruct t; tauto].
    destruct ds; [congruence|reflexivity].
Qed.
Lemma scan_exp_sound s e r : scan_exp s = (e, r) -> s = e ++ r /\ wf_exp e.
Proof.
  destruct s as [|c s]; cbn [scan_exp]; [intro H; injection H as <- <-; split; [reflexivity|left; reflexivity]|].
  destruct ((c =? 101) || (c =? 69)) eqn:P; [|intro H; injection H as <- <-; split; [reflexivity|left; reflexivity]].
  assert (C : c = 101 \/ c = 69) by lia.
  destruct s as [|g s]; [intro H; injection H as <- <-; split; [reflexivity|left; reflexivity]|].
  destruct ((g =? 43) || (g =? 45)) eqn:G.
  - destruct (span_digits s) as [[|d ds] r'] eqn:E; [intro H; injection H as <- <-; split; [reflexivity|left; reflexivity]|].
    intro H. injection H as <- <-. apply span_sound in E as [-> F]. split; [reflexivity|].
    right. exists c, (d :: ds). split; [exact C|]. split; [split; [discriminate|exact F]|]. right. exists g. split; [lia|reflexivity].
  - destruct (span_digits (g :: s)) as [[|d ds] r'] eqn:E; [intro H; injection H as <- <-; split; [reflexivity|left; reflexivity]|].
    intro H. injection H as <- <-. apply span_sound in E as [E F]. split; [cbn [app]; rewrite E; reflexivity|].
    right. exists c, (d :: ds). split; [exact C|]. split; [split; [discriminate|exact F]|]. left. reflexivity.
Qed.
Lemma scan_exp_complete e t : wf_exp e -> match t with c :: _ => is_digit c = false /\ c <> 101 /\ c <> 69 | [] => True end -> scan_exp (e ++ t) = (e, t).
Proof.
  intros [->|(c & ds & C & (NE & F) & E)] T.
  - destruct t as [|c t]; [reflexivity|]. cbn [app scan_exp]. replace ((c =? 101) || (c =? 69)) with false by (destruct T; lia). reflexivity.
  - assert (T' : match t with c :: _ => is_digit c = false | [] => True end) by (destruct t; tauto).
    assert (CC : (c =? 101) || (c =? 69) = true) by lia.
    destruct E as [->|(g & G & ->)]; cbn [app scan_exp]; rewrite CC.
    + destruct ds as [|d ds]; [congruence|]. cbn [app]. assert (D := Forall_inv F). cbn beta in D. unfold is_digit in D.
      replace ((d =? 43) || (d =? 45)) with false by lia. change (d :: ds ++ t) with ((d :: ds) ++ t).
      rewrite span_complete by assumption. reflexivity.
    + replace ((g =? 43) || (g =? 45)) with true by lia. rewrite span_complete by assumption.
      destruct ds; [congruence|reflexivity].
Qed.

(** The texts of a scalar value. *)
Definition scalar_text (v : json) (w : text) : Prop :=
  (exists i f e, wf_int i /\ wf_frac f /\ wf_exp e /\ w = i ++ f ++ e /\
     v = match f ++ e with [] => JInt (int_value i) | fe => JFloat (i ++ fe) end)
  \/ In (w, v) literals.

Lemma first_literal_sound ls s v r : first_literal ls s = Some (v, r) -> exists w, In (w, v) ls /\ s = w ++ r.
Proof.
  induction ls as [|[p x] ls IH]; cbn [first_literal]; [discriminate|].
  destruct (strip p s) as [r'|] eqn:E.
  - intro H. injection H as <- <-. exists p. split; [left; reflexivity|]. clear IH. revert s E.
    induction p as [|c p IHp]; intros s E; cbn [strip] in E; [injection E as ->; reflexivity|].
    destruct s as [|y s]; [discriminate|]. destruct (c =? y) eqn:C; [|discriminate]. apply N.eqb_eq in C. subst y.
    cbn [app]. rewrite <- (IHp s E). reflexivity.
  - intro H. destruct (IH H) as (w & HI & ->). exists w. split; [right; exact HI|reflexivity].
Qed.

Lemma scan_scalar_sound s v r : scan_scalar s = Some (v, r) -> exists w, scalar_text v w /\ s = w ++ r.
Proof.
  unfold scan_scalar. destruct (scan_number s) as [x|] eqn:N.
  - intro H. injection H as ->. unfold scan_number in N.
    destruct (scan_int s) as [[i r0]|] eqn:E1; [|discriminate]. apply scan_int_sound in E1 as [-> W1].
    destruct (scan_frac r0) as [f r1] eqn:E2. apply scan_frac_sound in E2 as [-> W2].
    destruct (scan_exp r1) as [e r2] eqn:E3. apply scan_exp_sound in E3 as [-> W3].
    exists (i ++ f ++ e). destruct (f ++ e) as [|y fe] eqn:FE; injection N as <- <-.
    + split; [left; exists i, f, e; rewrite FE; auto|]. rewrite app_assoc, <- !app_assoc. rewrite (app_assoc f), FE. cbn. reflexivity.
    + split; [left; exists i, f, e; rewrite FE; auto|]. rewrite <- app_assoc, <- FE, <- app_assoc. reflexivity.
  - intro H. apply first_literal_sound in H as (w & HI & ->). exists w. split; [right; exact HI|reflexivity].
Qed.

Lemma delim_not c : delim c = true -> is_digit c = false /\ c <> 46 /\ c <> 101 /\ c <> 69.
Proof. unfold delim, is_ws, is_digit. lia. Qed.

Lemma scan_scalar_complete v w t : scalar_text v w -> starts_delim t -> scan_scalar (w ++ t) = Some (v, t).
Proof.
  intros [(i & f & e & W1 & W2 & W3 & -> & ->)|HI] T.
  - destruct t as [|c t]; [contradiction|]. apply delim_not in T as (T1 & T2 & T3 & T4).
    unfold scan_scalar, scan_number. rewrite <- !app_assoc.
    rewrite scan_int_complete; [|exact W1|].
    + rewrite scan_frac_complete; [|exact W2|].
      * rewrite scan_exp_complete by auto. destruct (f ++ e); reflexivity.
      * destruct W3 as [->|(x & ds & X & _ & E)]; [cbn; auto|].
        destruct E as [->|(g & _ & ->)]; cbn; (split; [unfold is_digit; lia|lia]).
    + destruct W2 as [->|(ds & -> & _)]; [|reflexivity]. cbn [app].
      destruct W3 as [->|(x & ds & X & _ & E)]; [exact T1|].
      destruct E as [->|(g & _ & ->)]; cbn; unfold is_digit; lia.
  - cbn in HI. repeat (destruct HI as [HI|HI]; [injection HI as <- <-; reflexivity|]). contradiction.
Qed.

Lemma scalar_text_head v w : scalar_text v w -> exists c w', w = c :: w' /\ c <> 34 /\ c <> 123 /\ c <> 91 /\ is_ws c = false /\ c <> 93 /\ c <> 125.
Proof.
  intros [(i & f & e & W1 & _ & _ & -> & _)|HI].
  - destruct W1 as [W|(ds & -> & W)].
    + destruct (wf_nat_head i W) as (c & i' & -> & D). exists c. eexists. split; [reflexivity|]. unfold is_digit in D. unfold is_ws. lia.
    + exists 45. eexists. split; [reflexivity|]. unfold is_ws. lia.
  - cbn in HI. repeat (destruct HI as [HI|HI]; [injection HI as <- <-; eexists _, _; split; [reflexivity|]; repeat split; try discriminate; reflexivity|]).
    contradiction.
Qed.

Lemma scan_scalar_len s v r : scan_scalar s = Some (v, r) -> (List.length r < List.length s)%nat.
Proof.
  intro H. apply scan_scalar_sound in H as (w & W & ->). destruct (scalar_text_head v w W) as (c & w' & -> & _).
  cbn [app List.length]. rewrite app_length. lia.
Qed.

(** ** Consumption and fuel *)
Lemma parse_len n :
  (forall s v r, pvalue n s = Some (v, r) -> (List.length r < List.length s)%nat) /\
  (forall s ps r, pmembers n s = Some (ps, r) -> (List.length r < List.length s)%nat) /\
  (forall s l r, pelements n s = Some (l, r) -> (List.length r < List.length s)%nat).
Proof.
  induction n as [|n (IHv & IHm & IHe)]; [repeat split; discriminate|]. repeat split; intros s v r H.
  - cbn [pvalue] in H. destruct s as [|c s]; [discriminate|]. cbn [List.length].
    destruct (c =? 34).
    { destruct (scanstring s) as [[x r']|] eqn:S; [|discriminate]. injection H as _ <-. apply scanstring_len in S. lia. }
    pose proof (skip_ws_len s) as LW.
    destruct (c =? 123).
    { destruct (skip_ws s) as [|c2 s2] eqn:W; [discriminate|]. cbn [List.length] in LW.
      destruct (c2 =? 125); [injection H as _ <-; lia|].
      destruct (pmembers n (c2 :: s2)) as [[ps r']|] eqn:M; [|discriminate]. injection H as _ <-. apply IHm in M. cbn [List.length] in M. lia. }
    destruct (c =? 91).
    { destruct (skip_ws s) as [|c2 s2] eqn:W; [discriminate|]. cbn [List.length] in LW.
      destruct (c2 =? 93); [injection H as _ <-; lia|].
      destruct (pelements n (c2 :: s2)) as [[l r']|] eqn:M; [|discriminate]. injection H as _ <-. apply IHe in M. cbn [List.length] in M. lia. }
    apply scan_scalar_len in H. exact H.
  - cbn [pmembers] in H. destruct s as [|q s]; [discriminate|]. destruct (q =? 34); [|discriminate]. cbn [List.length].
    destruct (scanstring s) as [[k r0]|] eqn:S; [|discriminate]. apply scanstring_len in S.
    pose proof (skip_ws_len r0) as L0. destruct (skip_ws r0) as [|col r1]; [discriminate|]. destruct (col =? 58); [|discriminate].
    pose proof (skip_ws_len r1) as L1. destruct (pvalue n (skip_ws r1)) as [[x r2]|] eqn:V; [|discriminate]. apply IHv in V.
    pose proof (skip_ws_len r2) as L2. destruct (skip_ws r2) as [|c r3]; [discriminate|]. cbn [List.length] in *.
    destruct (c =? 125); [injection H as _ <-; lia|]. destruct (c =? 44); [|discriminate].
    pose proof (skip_ws_len r3) as L3. destruct (pmembers n (skip_ws r3)) as [[ps r4]|] eqn:M; [|discriminate]. injection H as _ <-.
    apply IHm in M. lia.
  - cbn [pelements] in H. destruct (pvalue n s) as [[x r1]|] eqn:V; [|discriminate]. apply IHv in V.
    pose proof (skip_ws_len r1) as L1. destruct (skip_ws r1) as [|c r2]; [discriminate|]. cbn [List.length] in *.
    destruct (c =? 93); [injection H as _ <-; lia|]. destruct (c =? 44); [|discriminate].
    pose proof (skip_ws_len r2) as L2. destruct (pelements n (skip_ws r2)) as [[l r3]|] eqn:M; [|discriminate]. injection H as _ <-.
    apply IHe in M. lia.
Qed.

Definition mbody (pv : text -> option (json * text)) (pm : text -> option (list (text * json) * text)) (s : text) :=
  match s with
  | [] => None
  | q :: s1 =>
      if q =? 34 then
        match scanstring s1 with
        | None => None
        | Some (k, r) =>
            match skip_ws r with
            | [] => None
            | col :: r1 =>
                if col =? 58 then
                  match pv (skip_ws r1) with
                  | None => None
                  | Some (v, r2) =>
                      match skip_ws r2 with
                      | [] => None
                      | c :: r3 =>
                          if c =? 125 then Some ([(k, v)], r3)
                          else if c =? 44 then
                            match pm (skip_ws r3) with
                            | Some (ps, r4) => Some ((k, v) :: ps, r4)
                            | None => None
                            end
                          else None
                      end
                  end
                else None
            end
        end
      else None
  end.
Definition ebody (pv : text -> option (json * text)) (pe : text -> option (list json * text)) (s : text) :=
  match pv s with
  | None => None
  | Some (v, r) =>
      match skip_ws r with
      | [] => None
      | c :: r1 =>
          if c =? 93 then Some ([v], r1)
          else if c =? 44 then
            match pe (skip_ws r1) with
            | Some (l, r2) => Some (v :: l, r2)
            | None => None
            end
          else None
      end
  end.
Lemma pmembers_S n s : pmembers (S n) s = mbody (pvalue n) (pmembers n) s. Proof. reflexivity. Qed.
Lemma pelements_S n s : pelements (S n) s = ebody (pvalue n) (pelements n) s. Proof. reflexivity. Qed.

Lemma fuel_step n :
  (forall s, (2 * List.length s + 1 <= n)%nat -> pvalue n s = pvalue (S n) s) /\
  (forall s, (2 * List.length s + 1 <= n)%nat -> pmembers n s = pmembers (S n) s) /\
  (forall s, (2 * List.length s + 2 <= n)%nat -> pelements n s = pelements (S n) s).
Proof.
  induction n as [|n (IHv & IHm & IHe)]; [repeat split; intros; lia|]. destruct (parse_len n) as (Lv & Lm & Le).
  repeat split; intros s L.
  - remember (S n) as n1. cbn [pvalue]. subst n1. cbn [pvalue]. destruct s as [|c s]; [reflexivity|]. cbn [List.length] in L.
    pose proof (skip_ws_len s) as LW. destruct (c =? 34); [reflexivity|]. destruct (c =? 123).
    { destruct (skip_ws s) as [|c2 s2]; [reflexivity|]. destruct (c2 =? 125); [reflexivity|]. rewrite (IHm (c2 :: s2)) by lia. reflexivity. }
    destruct (c =? 91).
    { destruct (skip_ws s) as [|c2 s2]; [reflexivity|]. destruct (c2 =? 93); [reflexivity|]. rewrite (IHe (c2 :: s2)) by lia. reflexivity. }
    reflexivity.
  - rewrite (pmembers_S (S n) s), (pmembers_S n s). unfold mbody. destruct s as [|q s]; [reflexivity|]. destruct (q =? 34); [|reflexivity].
    cbn [List.length] in L. destruct (scanstring s) as [[k r0]|] eqn:S; [|reflexivity]. apply scanstring_len in S.
    pose proof (skip_ws_len r0) as L0. destruct (skip_ws r0) as [|col r1]; [reflexivity|]. destruct (col =? 58); [|reflexivity].
    cbn [List.length] in L0. pose proof (skip_ws_len r1) as L1. rewrite <- (IHv (skip_ws r1)) by lia.
    destruct (pvalue n (skip_ws r1)) as [[x r2]|] eqn:V; [|reflexivity]. apply Lv in V.
    pose proof (skip_ws_len r2) as L2. destruct (skip_ws r2) as [|c r3]; [reflexivity|]. cbn [List.length] in L2.
    destruct (c =? 125); [reflexivity|]. destruct (c =? 44); [|reflexivity]. pose proof (skip_ws_len r3) as L3.
    rewrite <- (IHm (skip_ws r3)) by lia. reflexivity.
  - rewrite (pelements_S (S n) s), (pelements_S n s). unfold ebody. rewrite <- (IHv s) by lia.
    destruct (pvalue n s) as [[x r1]|] eqn:V; [|reflexivity]. apply Lv in V.
    pose proof (skip_ws_len r1) as L1. destruct (skip_ws r1) as [|c r2]; [reflexivity|]. cbn [List.length] in *.
    destruct (c =? 93); [reflexivity|]. destruct (c =? 44); [|reflexivity]. pose proof (skip_ws_len r2) as L2.
    rewrite <- (IHe (skip_ws r2)) by lia. reflexivity.
Qed.

Theorem fuel_irrelevant s n : (2 * List.length s + 1 <= n)%nat -> pvalue n s = pvalue (2 * List.length s + 1) s.
Proof.
  intro H. induction n as [|n IH]; [lia|]. destruct (Nat.eq_dec (S n) (2 * List.length s + 1)) as [->|NE]; [reflexivity|].
  rewrite <- IH by lia. symmetry. apply fuel_step. lia.
Qed.

Lemma fuel_mono_step n :
  (forall s x, pvalue n s = Some x -> pvalue (S n) s = Some x) /\
  (forall s x, pmembers n s = Some x -> pmembers (S n) s = Some x) /\
  (forall s x, pelements n s = Some x -> pelements (S n) s = Some x).
Proof.
  induction n as [|n (IHv & IHm & IHe)]; [repeat split; discriminate|]. repeat split; intros s x H.
  - remember (S n) as n1. cbn [pvalue]. subst n1. cbn [pvalue] in H. destruct s as [|c s]; [discriminate|].
    destruct (c =? 34); [exact H|]. destruct (c =? 123).
    { destruct (skip_ws s) as [|c2 s2]; [discriminate|]. destruct (c2 =? 125); [exact H|].
      destruct (pmembers n (c2 :: s2)) as [[ps r]|] eqn:M; [|discriminate]. rewrite (IHm _ _ M). exact H. }
    destruct (c =? 91); [|exact H].
    destruct (skip_ws s) as [|c2 s2]; [discriminate|]. destruct (c2 =? 93); [exact H|].
    destruct (pelements n (c2 :: s2)) as [[ps r]|] eqn:M; [|discriminate]. rewrite (IHe _ _ M). exact H.
  - remember (S n) as n1. cbn [pmembers]. subst n1. cbn [pmembers] in H. destruct s as [|q s]; [discriminate|]. destruct (q =? 34); [|discriminate].
    destruct (scanstring s) as [[k r0]|]; [|discriminate]. destruct (skip_ws r0) as [|col r1]; [discriminate|]. destruct (col =? 58); [|discriminate].
    destruct (pvalue n (skip_ws r1)) as [[y r2]|] eqn:V; [|discriminate]. rewrite (IHv _ _ V).
    destruct (skip_ws r2) as [|c r3]; [discriminate|]. destruct (c =? 125); [exact H|]. destruct (c =? 44); [|discriminate].
    destruct (pmembers n (skip_ws r3)) as [[ps r]|] eqn:M; [|discriminate]. rewrite (IHm _ _ M). exact H.
  - remember (S n) as n1. cbn [pelements]. subst n1. cbn [pelements] in H.
    destruct (pvalue n s) as [[y r1]|] eqn:V; [|discriminate]. rewrite (IHv _ _ V).
    destruct (skip_ws r1) as [|c r2]; [discriminate|]. destruct (c =? 93); [exact H|]. destruct (c =? 44); [|discriminate].
    destruct (pelements n (skip_ws r2)) as [[ps r]|] eqn:M; [|discriminate]. rewrite (IHe _ _ M). exact H.
Qed.
Lemma fuel_mono n m s x : (n <= m)%nat -> pvalue n s = Some x -> pvalue m s = Some x.
Proof. induction 1 as [|m _ IH]; [tauto|]. intro H. apply fuel_mono_step. exact (IH H). Qed.
Lemma fuel_mono_m n m s x : (n <= m)%nat -> pmembers n s = Some x -> pmembers m s = Some x.
Proof. induction 1 as [|m _ IH]; [tauto|]. intro H. apply fuel_mono_step. exact (IH H). Qed.
Lemma fuel_mono_e n m s x : (n <= m)%nat -> pelements n s = Some x -> pelements m s = Some x.
Proof. induction 1 as [|m _ IH]; [tauto|]. intro H. apply fuel_mono_step. exact (IH H). Qed.
Lemma fuel_det n m s x y : pvalue n s = Some x -> pvalue m s = Some y -> x = y.
Proof.
  intros H1 H2. apply (fuel_mono n (Nat.max n m)) in H1; [|lia]. apply (fuel_mono m (Nat.max n m)) in H2; [|lia]. congruence.
Qed.

(** ** Appending text does not change what was read *)
Definition opens (s : text) : Prop := match s with c :: _ => c = 34 \/ c = 123 \/ c = 91 | [] => False end.

Lemma skip_ws_delim r c r' : skip_ws r = c :: r' -> (c = 44 \/ c = 93 \/ c = 125) -> forall q, starts_delim (r ++ q).
Proof.
  intros H C q. destruct r as [|x r]; [discriminate|]. cbn [app starts_delim]. cbn [skip_ws] in H. unfold delim.
  destruct (is_ws x) eqn:W; [reflexivity|]. injection H as -> _. lia.
Qed.

Lemma parse_ext n :
  (forall p v r q, pvalue n p = Some (v, r) -> opens p \/ starts_delim (r ++ q) -> pvalue n (p ++ q) = Some (v, r ++ q)) /\
  (forall p ps r q, pmembers n p = Some (ps, r) -> pmembers n (p ++ q) = Some (ps, r ++ q)) /\
  (forall p l r q, pelements n p = Some (l, r) -> pelements n (p ++ q) = Some (l, r ++ q)).
Proof.
  induction n as [|n (IHv & IHm & IHe)]; [repeat split; discriminate|]. repeat split.
  - intros p v r q H K. cbn [pvalue] in H |- *. destruct p as [|c p]; [discriminate|]. cbn [app].
    destruct (c =? 34) eqn:C1.
    { destruct (scanstring p) as [[x r']|] eqn:S; [|discriminate]. injection H as <- <-. rewrite (scanstring_ext _ _ _ q S). reflexivity. }
    destruct (c =? 123) eqn:C2.
    { destruct (skip_ws p) as [|c2 p2] eqn:W; [discriminate|]. rewrite (skip_ws_ext _ q _ _ W).
      destruct (c2 =? 125); [injection H as <- <-; reflexivity|].
      destruct (pmembers n (c2 :: p2)) as [[ps r']|] eqn:M; [|discriminate]. injection H as <- <-.
      change (c2 :: p2 ++ q) with ((c2 :: p2) ++ q). rewrite (IHm _ _ _ q M). reflexivity. }
    destruct (c =? 91) eqn:C3.
    { destruct (skip_ws p) as [|c2 p2] eqn:W; [discriminate|]. rewrite (skip_ws_ext _ q _ _ W).
      destruct (c2 =? 93); [injection H as <- <-; reflexivity|].
      destruct (pelements n (c2 :: p2)) as [[ps r']|] eqn:M; [|discriminate]. injection H as <- <-.
      change (c2 :: p2 ++ q) with ((c2 :: p2) ++ q). rewrite (IHe _ _ _ q M). reflexivity. }
    destruct K as [K|K]; [cbn in K; lia|].
    apply scan_scalar_sound in H as (w & W & E). rewrite app_comm_cons, E, <- app_assoc. apply scan_scalar_complete; assumption.
  - intros p ps r q H. cbn [pmembers] in H |- *. destruct p as [|c p]; [discriminate|]. cbn [app]. destruct (c =? 34); [|discriminate].
    destruct (scanstring p) as [[k r0]|] eqn:S; [|discriminate]. rewrite (scanstring_ext _ _ _ q S).
    destruct (skip_ws r0) as [|col r1] eqn:W0; [discriminate|]. rewrite (skip_ws_ext _ q _ _ W0). destruct (col =? 58); [|discriminate].
    destruct (pvalue n (skip_ws r1)) as [[x r2]|] eqn:V; [|discriminate].
    assert (W1 : exists c1 s1, skip_ws r1 = c1 :: s1).
    { destruct (skip_ws r1) as [|c1 s1] eqn:E; [|eauto]. exfalso. destruct n; discriminate V. }
    destruct W1 as (c1 & s1 & W1). rewrite (skip_ws_ext _ q _ _ W1). rewrite W1 in V.
    destruct (skip_ws r2) as [|c2 r3] eqn:W2; [discriminate|].
    assert (CC : c2 = 44 \/ c2 = 93 \/ c2 = 125) by (destruct (c2 =? 125) eqn:?; [lia|]; destruct (c2 =? 44) eqn:?; [lia|discriminate]).
    change (c1 :: s1 ++ q) with ((c1 :: s1) ++ q). rewrite (IHv _ _ _ q V (or_intror (skip_ws_delim r2 c2 r3 W2 CC q))).
    rewrite (skip_ws_ext _ q _ _ W2).
    destruct (c2 =? 125); [injection H as <- <-; reflexivity|]. destruct (c2 =? 44); [|discriminate].
    destruct (pmembers n (skip_ws r3)) as [[ps' r4]|] eqn:M; [|discriminate]. injection H as <- <-.
    destruct (skip_ws r3) as [|c4 s4] eqn:W3; [destruct n; discriminate M|]. rewrite (skip_ws_ext _ q _ _ W3).
    change (c4 :: s4 ++ q) with ((c4 :: s4) ++ q). rewrite (IHm _ _ _ q M). reflexivity.
  - intros p l r q H. cbn [pelements] in H |- *.
    destruct (pvalue n p) as [[x r2]|] eqn:V; [|discriminate].
    destruct (skip_ws r2) as [|c2 r3] eqn:W2; [discriminate|].
    assert (CC : c2 = 44 \/ c2 = 93 \/ c2 = 125) by (destruct (c2 =? 93) eqn:?; [lia|]; destruct (c2 =? 44) eqn:?; [lia|discriminate]).
    rewrite (IHv _ _ _ q V (or_intror (skip_ws_delim r2 c2 r3 W2 CC q))).
    rewrite (skip_ws_ext _ q _ _ W2).
    destruct (c2 =? 93); [injection H as <- <-; reflexivity|]. destruct (c2 =? 44); [|discriminate].
    destruct (pelements n (skip_ws r3)) as [[ps' r4]|] eqn:M; [|discriminate]. injection H as <- <-.
    destruct (skip_ws r3) as [|c4 s4] eqn:W3; [destruct n as [|[|n]]; discriminate M|]. rewrite (skip_ws_ext _ q _ _ W3).
    change (c4 :: s4 ++ q) with ((c4 :: s4) ++ q). rewrite (IHe _ _ _ q M). reflexivity.
Qed.
