(** * The command line parser: values *)
From Verif Require Import PyBase Json_Model Json_Proofs Settings_Model Cli_Model Main_Model Main_Spec Argparse_Model Argparse_Spec Argparse_Proofs Argparse_Proofs2.
Open Scope list_scope.

Section Values.
  Variable unicode_digit : N -> bool.
  Notation read := (parse_optional unicode_digit).
  Notation neg := (negative_number unicode_digit).
  Notation dig := (digit unicode_digit).

  (** ** One hyphen *)
  Definition attached (r : text) : option (bool * text) :=
    match r with [] => None | d :: e => if N.eqb d 61 then Some (true, e) else Some (false, d :: e) end.
  Definition leftover (w : text) : word_class := if neg w then Argument else if existsb (N.eqb 32) w then Argument else OptionWord Unknown.
  Lemma long_single l e c d r : c <> 45%N -> ~ denotes l e (45%N :: c :: d :: r).
  Proof. intros Hc [_ [(x & _ & E)|(p & r' & _ & _ & E)]]; [discriminate|]. injection E as E _. exact (Hc E). Qed.
  Lemma letter_cases l a c : action_of (actions l) [45%N; c] = Some a -> exists e, In e (entries l) /\ like a e /\ e_letter e = Some c.
  Proof.
    intro H. apply action_some in H as [I J]. destruct (strings_denote l a _ I J) as (e & L & [Ie D]). exists e. split; [exact Ie|]. split; [exact L|].
    destruct D as [(x & E & W)|(p & r' & Hp & _ & W)]; [injection W as ->; exact E|]. destruct p; [congruence|discriminate].
  Qed.
  Lemma letter_tuples l a c d e : action_of (actions l) [45%N; c] = Some a ->
    get_option_tuples (actions l) (45%N :: c :: d :: e) = [Known a false (Some (false, d :: e))].
  Proof.
    intro H. destruct (letter_cases l a c H) as (en & I & _ & E).
    destruct l as [|[| |]]; cbn in I; repeat (destruct I as [<-|I]; [try discriminate E; injection E as <-; vm_compute in H; injection H as <-; reflexivity|]); destruct I.
  Qed.
  Lemma no_letter_tuples l c r : c <> 45%N -> action_of (actions l) [45%N; c] = None -> get_option_tuples (actions l) (45%N :: c :: r) = [].
  Proof.
    intros Hc H. unfold get_option_tuples. assert (T : two_dashes (45%N :: c :: r) = false) by (cbn; destruct (N.eqb_spec c hyphen); [exfalso; exact (Hc e)|reflexivity]).
    rewrite T. apply flat_map_nil. intros [o a] I. apply in_strings in I as [Ia Io]. cbn [fst snd firstn].
    assert (No : o <> [45%N; c]).
    { intros ->. unfold action_of in H. apply (find_none _ _ H) in Ia. assert (K : existsb (text_eqb [45%N; c]) (option_strings a) = true).
      { apply existsb_exists. exists [45%N; c]. split; [exact Io|]. now apply text_eqb_eq. } congruence. }
    destruct (text_eqb o [45%N; c]) eqn:E; [apply text_eqb_eq in E; contradiction|].
    destruct (startswith o (45%N :: c :: r)) eqn:S; [|reflexivity]. exfalso. apply startswith_iff in S as [r' ->].
    destruct (strings_denote l a _ Ia Io) as (e & _ & [_ [(x & _ & W)|(p & r'' & _ & _ & W)]]).
    - cbn [app] in W. injection W as -> W. apply app_eq_nil in W as [-> ->]. apply No. reflexivity.
    - cbn [app] in W. injection W as W _. exact (Hc W).
  Qed.
  Lemma read_one l c r : c <> 45%N -> read (actions l) (45%N :: c :: r) =
    match action_of (actions l) [45%N; c] with
    | Some a => Class (OptionWord (Known a false (attached r)))
    | None => Class (leftover (45%N :: c :: r))
    end.
  Proof.
    intro Hc. assert (T : forall s, two_dashes (45%N :: c :: s) = false) by (intro s; cbn; destruct (N.eqb_spec c hyphen); [exfalso; exact (Hc e)|reflexivity]).
    unfold parse_optional. change (negb (45 =? hyphen)%N) with false. cbn [negb]. destruct r as [|d r].
    - destruct (action_of (actions l) [45%N; c]) as [a|] eqn:A; [rewrite T; reflexivity|]. cbn [partition_eq]. change (N.eqb 45 equals) with false. cbn match.
      rewrite (no_letter_tuples l c [] Hc A). destruct (N.eqb_spec c equals) as [->|Ne].
      + rewrite (action_none l [45%N]).
        * unfold leftover. destruct (neg _); [reflexivity|]. destruct (existsb _ _); reflexivity.
        * intros e [_ [(x & _ & W)|(p & r' & _ & _ & W)]]; discriminate.
      + unfold leftover. destruct (neg _); [reflexivity|]. destruct (existsb _ _); reflexivity.
    - rewrite (action_none l (45%N :: c :: d :: r)) by (intros e; apply long_single; exact Hc).
      destruct (action_of (actions l) [45%N; c]) as [a|] eqn:A.
      + destruct (letter_cases l a c A) as (en & I & _ & E).
        assert (Hq : c <> 61%N) by (clear - I E; intros ->; destruct l as [|[| |]]; cbn in I; repeat (destruct I as [<-|I]; [discriminate E|]); destruct I).
        cbn [attached]. destruct (N.eqb_spec d 61) as [->|Nd].
        * assert (P : partition_eq (45%N :: c :: 61%N :: r) = ([45%N; c], Some r)).
          { apply partition_some. split; [reflexivity|]. intros [K|[K|[]]]; [discriminate|exact (Hq K)]. }
          rewrite P, A, T. reflexivity.
        * rewrite (letter_tuples l a c d r A). destruct (partition_cases (45%N :: c :: d :: r)) as [(h & t & P)|P]; rewrite P; [|reflexivity].
          apply partition_some in P as [W N1]. destruct h as [|h1 [|h2 [|h3 h]]]; try discriminate W.
          -- injection W as <- W _. destruct (Hq W).
          -- injection W as <- <- W _. destruct (Nd W).
          -- injection W as <- <- <- _. rewrite (action_none l (_ :: c :: d :: h)) by (intros e; apply long_single; exact Hc). reflexivity.
      + rewrite (no_letter_tuples l c _ Hc A).
        assert (K : forall h t, partition_eq (45%N :: c :: d :: r) = (h, Some t) -> action_of (actions l) h = None).
        { intros h t P. apply partition_some in P as [W N1]. destruct h as [|h1 [|h2 [|h3 h]]]; try discriminate W.
          - injection W as <- W _. apply action_none. intros e [_ [(x & _ & V)|(p & r' & _ & _ & V)]]; discriminate.
          - injection W as <- <- W _. exact A.
          - injection W as <- <- <- _. apply action_none. intros e; apply long_single; exact Hc. }
        unfold leftover. destruct (partition_eq (45%N :: c :: d :: r)) as [h [t|]] eqn:P; [rewrite (K h t eq_refl)|];
          (destruct (neg _); [reflexivity|]; destruct (existsb _ _); reflexivity).
  Qed.
  Lemma read_ambiguous l r : read (actions l) (45%N :: 45%N :: 61%N :: r) = Ambiguous.
  Proof. destruct l as [|[| |]]; reflexivity. Qed.

  (** ** Negative numbers *)
  Lemma dig_iff c : dig c = true <-> a_digit unicode_digit c.
  Proof.
    unfold digit, a_digit. destruct (N.ltb_spec c 128) as [H|H].
    - rewrite andb_true_iff, !N.leb_le. split; [intro K; left; exact K|]. intros [K|[K _]]; [exact K|lia].
    - split; [intro K; right; split; assumption|]. intros [K|[_ K]]; [lia|exact K].
  Qed.
  Lemma drop_spec w : exists ds, Forall (a_digit unicode_digit) ds /\ w = ds ++ drop_digits unicode_digit w /\ (starts_digit unicode_digit w = true <-> ds <> []).
  Proof.
    induction w as [|c w IH]; cbn [drop_digits starts_digit]; [exists []; repeat split; try constructor; [discriminate|congruence]|].
    destruct (dig c) eqn:D; [|exists []; repeat split; [constructor|discriminate|congruence]].
    destruct IH as (ds & F & E & _). exists (c :: ds). split; [constructor; [now apply dig_iff|exact F]|]. split; [cbn; now rewrite <- E|]. split; [discriminate|reflexivity].
  Qed.
  Lemma drop_app ds w : Forall (a_digit unicode_digit) ds -> drop_digits unicode_digit (ds ++ w) = drop_digits unicode_digit w.
  Proof. induction 1 as [|c ds H _ IH]; [reflexivity|]. cbn [app drop_digits]. apply dig_iff in H. rewrite H. exact IH. Qed.
  Lemma starts_app ds w : Forall (a_digit unicode_digit) ds -> ds <> [] -> starts_digit unicode_digit (ds ++ w) = true.
  Proof. intros [|c ds' H _] N; [congruence|]. cbn. now apply dig_iff. Qed.
  Lemma nl_end nl : nl = [] \/ nl = [10%N] -> drop_digits unicode_digit nl = nl /\ at_end nl = true.
  Proof. intros [->| ->]; split; reflexivity. Qed.
  Lemma at_end_nl w : at_end w = true -> w = [] \/ w = [10%N].
  Proof. destruct w as [|c [|d w]]; cbn; [now left| |discriminate]. intro H. apply N.eqb_eq in H. subst c. now right. Qed.
  Lemma neg_iff v : neg v = true <-> a_negative unicode_digit v.
  Proof.
    split.
    - destruct v as [|c r]; [discriminate|]. cbn [negative_number]. intro H. apply andb_prop in H as [H1 H2]. apply N.eqb_eq in H1. subst c.
      destruct (drop_spec r) as (ds & F & E & S). apply orb_prop in H2 as [H2|H2].
      + apply andb_prop in H2 as [H2 H3]. apply at_end_nl in H3. exists ds, [], (drop_digits unicode_digit r).
        split; [exact F|]. split; [constructor|]. split; [exact H3|]. left. split; [now apply S|]. now rewrite <- E.
      + destruct (drop_digits unicode_digit r) as [|d f] eqn:D; [discriminate|]. apply andb_prop in H2 as [H2 H3]. apply andb_prop in H2 as [H2 H4]. apply N.eqb_eq in H2. subst d.
        destruct (drop_spec f) as (fs & G & E' & S'). apply at_end_nl in H3. exists ds, fs, (drop_digits unicode_digit f).
        split; [exact F|]. split; [exact G|]. split; [exact H3|]. right. split; [now apply S'|]. rewrite <- E'. now rewrite E at 1.
    - intros (ds & fs & nl & F & G & Hnl & [[N ->]|[N ->]]); cbn [negative_number]; change (N.eqb 45 hyphen) with true; cbn [andb]; rewrite drop_app by exact F; destruct (nl_end nl Hnl) as [D E].
      + rewrite (starts_app ds nl F N), D, E. reflexivity.
      + change (drop_digits unicode_digit (46%N :: fs ++ nl)) with (46%N :: fs ++ nl). cbn match. rewrite (starts_app fs nl G N), (drop_app fs nl G), D, E.
        rewrite orb_true_r. reflexivity.
  Qed.
  Lemma space_iff w : existsb (N.eqb 32) w = true <-> In 32%N w.
  Proof. rewrite existsb_exists. split; [intros (x & I & E); apply N.eqb_eq in E; now subst x|]. intro I. exists 32%N. split; [exact I|reflexivity]. Qed.
  Lemma leftover_argument w : leftover w = Argument <-> a_negative unicode_digit w \/ In 32%N w.
  Proof.
    unfold leftover. rewrite <- neg_iff, <- space_iff. destruct (neg w); [split; [now left|reflexivity]|]. destruct (existsb _ w); split; try reflexivity; try (now right); try discriminate.
    intros [H|H]; discriminate.
  Qed.

  (** ** Words with two hyphens, split *)
  Lemma two_split r : (exists s, r = 61%N :: s) \/ r = [] \/ exists p x, p <> [] /\ ~ In 61%N p /\ 45%N :: 45%N :: r = glued (45%N :: 45%N :: p) x.
  Proof.
    destruct (partition_cases r) as [(h & t & P)|P].
    - apply partition_some in P as [-> N1]. destruct h as [|c h]; [left; exists t; reflexivity|]. right. right. exists (c :: h), (Some t). split; [discriminate|]. split; [exact N1|reflexivity].
    - apply partition_none in P. destruct r as [|c r]; [right; left; reflexivity|]. right. right. exists (c :: r), None. split; [discriminate|]. split; [exact P|reflexivity].
  Qed.

  (** ** The words read as values *)
  Lemma read_value l v : value_word unicode_digit l v <-> v <> [45%N; 45%N] /\ read (actions l) v = Class Argument.
  Proof.
    destruct v as [|c r]; [split; [intros _; split; [discriminate|reflexivity]|intros _; left; discriminate]|].
    destruct (N.eq_dec c 45) as [->|Hc].
    2:{ split; [|intros _; left; intros s E; injection E as E _; exact (Hc E)]. intros _. split; [intro E; injection E as E _; exact (Hc E)|].
        unfold parse_optional. destruct (N.eqb_spec c hyphen) as [E|E]; [destruct (Hc E)|reflexivity]. }
    destruct r as [|c r]; [split; [intros _; split; [discriminate|]|intros _; right; left; reflexivity]|].
    { unfold parse_optional. change (negb (45 =? hyphen)%N) with false. cbn match. rewrite (action_none l [45%N]); [reflexivity|].
      intros e [_ [(x & _ & W)|(p & r' & _ & _ & W)]]; discriminate. }
    destruct (N.eq_dec c 45) as [->|Hc].
    - destruct (two_split r) as [[s ->]|[-> |(p & x & Hp & Np & E)]].
      + rewrite read_ambiguous. split; [|intros [_ H]; discriminate]. intros [H|[H|(_ & _ & _ & H)]]; [destruct (H (45%N :: 61%N :: s) eq_refl)|discriminate|destruct (H s eq_refl)].
      + split; [|intros [H _]; congruence]. intros [H|[H|([H|H] & _)]]; [destruct (H [45%N] eq_refl)|discriminate| |].
        * apply neg_iff in H. discriminate.
        * destruct H as [H|[H|[]]]; discriminate.
      + rewrite E. destruct (denoted_or_not l (45%N :: 45%N :: p)) as [[e D]|D].
        * destruct (read_denoted unicode_digit l e _ D) as (a & _ & _ & R1 & R2). destruct x as [v|]; cbn [glued].
          -- rewrite R2. split; [|intros [_ H]; discriminate]. intros [H|[H|(_ & H & _)]]; [destruct (H _ eq_refl)|discriminate|destruct (H e _ v D eq_refl)].
          -- rewrite R1. split; [|intros [_ H]; discriminate]. intros [H|[H|([H|H] & _)]]; [destruct (H _ eq_refl)|discriminate| |].
             ++ apply neg_iff in H. rewrite neg_two in H. discriminate.
             ++ destruct (proj1 (dashed_no_space l e _ D) H).
        * rewrite (read_two unicode_digit l p x Np Hp D). split.
          -- intros [H|[H|([H|H] & _)]]; [destruct x; destruct (H _ eq_refl)|destruct x; discriminate| |].
             ++ apply neg_iff in H. destruct x; cbn [glued app] in H; rewrite neg_two in H; discriminate.
             ++ apply space_iff in H. rewrite H. split; [|reflexivity]. destruct x, p; cbn [glued app]; try congruence; discriminate.
          -- intros [_ H]. right. right. destruct (existsb _ _) eqn:S; [|discriminate]. apply space_iff in S. split; [now right|]. split; [|split].
             ++ intros e w r' Dw K. pose proof (dashed_no_space l e w Dw) as [_ Nw]. destruct x as [v|]; cbn [glued] in K.
                ** assert (P1 : partition_eq ((45%N :: 45%N :: p) ++ 61%N :: v) = (45%N :: 45%N :: p, Some v)).
                   { apply partition_some. split; [reflexivity|]. intros [Q|[Q|Q]]; [discriminate|discriminate|exact (Np Q)]. }
                   assert (P2 : partition_eq (w ++ 61%N :: r') = (w, Some r')) by (apply partition_some; split; [reflexivity|exact Nw]).
                   rewrite K, P2 in P1. injection P1 as -> _. exact (D e Dw).
                ** assert (Q : In 61%N (45%N :: 45%N :: p)) by (rewrite K; apply in_or_app; right; now left).
                   destruct Q as [Q|[Q|Q]]; [discriminate|discriminate|exact (Np Q)].
             ++ intros e c r' I L K. assert (c = 45%N) by (destruct x; injection K as K _; congruence). subst c.
                clear - I L. destruct l as [|[| |]]; cbn in I; repeat (destruct I as [<-|I]; [discriminate L|]); destruct I.
             ++ intros r' K. destruct p as [|p0 p]; [congruence|]. assert (p0 = 61%N) by (destruct x; injection K as K _; exact K). subst p0. apply Np. now left.
    - rewrite (read_one l c r Hc). destruct (action_of (actions l) [45%N; c]) as [a|] eqn:A.
      + split; [|intros [_ H]; discriminate]. destruct (letter_cases l a c A) as (e & I & _ & L).
        intros [H|[H|(_ & _ & H & _)]]; [destruct (H _ eq_refl)|discriminate|destruct (H e c r I L eq_refl)].
      + assert (K : Class (leftover (45%N :: c :: r)) = Class Argument <-> leftover (45%N :: c :: r) = Argument) by (split; [intro H; now injection H|intros ->; reflexivity]).
        rewrite K, leftover_argument. split.
        * intros [H|[H|(H & _)]]; [destruct (H _ eq_refl)|discriminate|]. split; [intro E; injection E as E _; exact (Hc E)|exact H].
        * intros [_ H]. right. right. split; [exact H|]. split; [|split].
          -- intros e w r' Dw E. pose proof Dw as [I [(x & L & ->)|(p & r'' & _ & _ & ->)]].
             ++ injection E as -> _. destruct (read_denoted unicode_digit l e _ Dw) as (a & Ia & (_ & Os & _) & _). rewrite L in Os.
                unfold action_of in A. apply (find_none _ _ A) in Ia. rewrite Os in Ia. cbn [app existsb] in Ia.
                rewrite (proj2 (text_eqb_eq [45%N; x] [45%N; x]) eq_refl) in Ia. discriminate.
             ++ injection E as E _. exact (Hc E).
          -- intros e x r' I L E. injection E as -> _. destruct (action_for l e I) as (a & Ia & (_ & Os & _)). rewrite L in Os.
             unfold action_of in A. apply (find_none _ _ A) in Ia. rewrite Os in Ia. cbn [app existsb] in Ia.
             rewrite (proj2 (text_eqb_eq [45%N; x] [45%N; x]) eq_refl) in Ia. discriminate.
          -- intros r' E. injection E as E _. exact (Hc E).
  Qed.
End Values.
