(** * The command line parser: how words are read *)
From Verif Require Import PyBase Json_Model Json_Proofs Settings_Model Cli_Model Main_Model Main_Spec Argparse_Model Argparse_Spec Argparse_Proofs.
Open Scope list_scope.

Lemma prefixes_inv p : forall w, In p (prefixes w) -> p <> [] /\ exists r, w = p ++ r.
Proof.
  intro w. revert p. induction w as [|c w IH]; cbn [prefixes]; intros p I; [destruct I|]. destruct I as [<-|I]; [split; [discriminate|]; exists w; reflexivity|].
  apply in_map_iff in I as (q & <- & I). destruct (IH q I) as [_ [r ->]]. split; [discriminate|]. exists r. reflexivity.
Qed.
Lemma words_denote l e w : In e (entries l) -> In w (entry_words e) -> denotes l e w.
Proof.
  intros I H. split; [exact I|]. unfold entry_words in H. apply in_app_or in H as [H|H].
  - destruct (e_letter e) as [c|]; [|destruct H]. destruct H as [<-|[]]. left. exists c. split; reflexivity.
  - apply in_map_iff in H as (p & <- & H). apply prefixes_inv in H as [Hp [r E]]. right. exists p, r. repeat split; assumption.
Qed.
Lemma denoted_or_not l w : (exists e, denotes l e w) \/ (forall e, ~ denotes l e w).
Proof.
  destruct (in_dec (list_eq_dec N.eq_dec) w (flat_map entry_words (entries l))) as [I|I].
  - apply in_flat_map in I as (e & I & J). left. exists e. apply words_denote; assumption.
  - right. intros e D. apply I. apply in_flat_map. apply denotes_words in D. exists e. exact D.
Qed.
Lemma dashed_no_space l e w : denotes l e w -> ~ In 32%N w /\ ~ In 61%N w.
Proof.
  intro D. apply denotes_words in D as [I J].
  destruct l as [|[| |]]; cbn in I; repeat (destruct I as [<-|I]; [vm_compute in J; repeat (destruct J as [<-|J]; [split; intro K; repeat (destruct K as [K|K]; [discriminate K|]); exact K|]); destruct J|]); destruct I.
Qed.

Section Words.
  Variable unicode_digit : N -> bool.
  Notation read := (parse_optional unicode_digit).
  Notation neg := (negative_number unicode_digit).

  (** A word denoting an option, perhaps with a '=' and some text. *)
  Lemma read_denoted l e w : denotes l e w -> exists a, In a (actions l) /\ like a e /\
    read (actions l) w = Class (OptionWord (Known a (two_dashes w) None)) /\
    (forall v, read (actions l) (w ++ 61%N :: v) = Class (OptionWord (Known a (two_dashes w) (Some (true, v))))).
  Proof.
    intro D. apply denotes_words in D as [I J].
    destruct l as [|[| |]]; cbn in I;
      repeat (destruct I as [<-|I]; [vm_compute in J;
        repeat (destruct J as [<-|J];
          [eexists; split; [|split; [|split; [vm_compute; reflexivity|intro v; vm_compute; reflexivity]]]; [cbn; tauto|repeat split; cbn; auto]|]); destruct J|]); destruct I.
  Qed.

  (** Other words with two hyphens. *)
  Lemma in_strings P o a : In (o, a) (all_strings P) <-> In a P /\ In o (option_strings a).
  Proof.
    unfold all_strings. rewrite in_flat_map. split.
    - intros (b & I & H). apply in_map_iff in H as (x & E & H). injection E as -> ->. split; assumption.
    - intros [I H]. exists a. split; [exact I|]. apply in_map_iff. exists o. split; [reflexivity|exact H].
  Qed.
  Lemma strings_denote l a o : In a (actions l) -> In o (option_strings a) -> exists e, like a e /\ denotes l e o.
  Proof.
    intros I H. destruct (entry_for l a I) as (e & Ie & L). exists e. split; [exact L|]. destruct L as (_ & E & _). rewrite E in H. apply in_app_or in H as [H|H].
    - split; [exact Ie|]. left. destruct (e_letter e) as [c|]; [|destruct H]. destruct H as [<-|[]]. exists c. split; reflexivity.
    - split; [exact Ie|]. right. destruct H as [<-|[]]. exists (txt (e_long e)), []. rewrite app_nil_r. split; [|split; reflexivity].
      clear - Ie. destruct l as [|[| |]]; cbn in Ie; repeat (destruct Ie as [<-|Ie]; [discriminate|]); destruct Ie.
  Qed.
  Lemma action_none l w : (forall e, ~ denotes l e w) -> action_of (actions l) w = None.
  Proof.
    intro H. unfold action_of. destruct (find _ _) as [a|] eqn:F; [|reflexivity]. exfalso. apply find_some in F as [I E]. apply existsb_exists in E as (o & Io & E).
    apply text_eqb_eq in E. subst o. destruct (strings_denote l a w I Io) as (e & _ & D). exact (H e D).
  Qed.
  Lemma action_some P w a : action_of P w = Some a -> In a P /\ In w (option_strings a).
  Proof. intro F. unfold action_of in F. apply find_some in F as [I E]. apply existsb_exists in E as (o & Io & E). apply text_eqb_eq in E. subst o. split; assumption. Qed.
  Lemma flat_map_nil {A B} (f : A -> list B) l : (forall x, In x l -> f x = []) -> flat_map f l = [].
  Proof. induction l as [|x l IH]; intro H; [reflexivity|]. cbn [flat_map]. rewrite (H x (or_introl eq_refl)). apply IH. intros y Hy. apply H. now right. Qed.
  Lemma neg_two r : neg (45%N :: 45%N :: r) = false.
  Proof. reflexivity. Qed.
  (** [after]: nothing or a '=' with some text *)
  Lemma two_undenoted l p x : ~ In 61%N p -> p <> [] -> (forall e, ~ denotes l e (45%N :: 45%N :: p)) ->
    get_option_tuples (actions l) (glued (45%N :: 45%N :: p) x) = [].
  Proof.
    intros Np Hp H. assert (T : two_dashes (glued (45%N :: 45%N :: p) x) = true) by (destruct x; reflexivity). unfold get_option_tuples. rewrite T.
    assert (E : exists y, partition_eq (glued (45%N :: 45%N :: p) x) = (45%N :: 45%N :: p, y)).
    { assert (N2 : ~ In 61%N (45%N :: 45%N :: p)) by (intros [K|[K|K]]; [discriminate|discriminate|exact (Np K)]).
      destruct x as [v|]; [exists (Some v); apply partition_some; split; [reflexivity|exact N2]|exists None; apply partition_none; exact N2]. }
    destruct E as [y ->]. apply flat_map_nil. intros [o a] I. apply in_strings in I as [Ia Io]. cbn [fst snd].
    destruct (startswith o (45%N :: 45%N :: p)) eqn:S; [|reflexivity]. exfalso. apply startswith_iff in S as [r ->].
    destruct (strings_denote l a _ Ia Io) as (e & _ & [Ie [(c & _ & E)|(q & r' & _ & E & E')]]); [destruct p as [|d p]; [destruct (Hp eq_refl)|discriminate E]|].
    cbn [app] in E'. assert (E2 : p ++ r = q) by congruence. clear E'. rename E2 into E'. apply (H e). split; [exact Ie|]. right. exists p, (r ++ r'). split; [exact Hp|]. split; [|reflexivity].
    rewrite E, <- E', app_assoc. reflexivity.
  Qed.
  Lemma action_none_eq l w v : action_of (actions l) (w ++ 61%N :: v) = None.
  Proof. apply action_none. intros e D. apply dashed_no_space in D as [_ D]. apply D. apply in_or_app. right. now left. Qed.
  Lemma read_two l p x : ~ In 61%N p -> p <> [] -> (forall e, ~ denotes l e (45%N :: 45%N :: p)) ->
    read (actions l) (glued (45%N :: 45%N :: p) x) =
    Class (if existsb (N.eqb 32) (glued (45%N :: 45%N :: p) x) then Argument else OptionWord Unknown).
  Proof.
    intros Np Hp H. pose proof (two_undenoted l p x Np Hp H) as G.
    assert (N2 : ~ In 61%N (45%N :: 45%N :: p)) by (intros [K|[K|K]]; [discriminate|discriminate|exact (Np K)]).
    assert (A : action_of (actions l) (glued (45%N :: 45%N :: p) x) = None) by (destruct x; [apply action_none_eq|apply action_none; exact H]).
    assert (Ng : neg (glued (45%N :: 45%N :: p) x) = false) by (destruct x; apply neg_two).
    assert (P : partition_eq (glued (45%N :: 45%N :: p) x) = (45%N :: 45%N :: p, x)).
    { destruct x as [v|]; [apply partition_some; split; [reflexivity|exact N2]|apply partition_none; exact N2]. }
    revert G A Ng P. set (w := glued (45%N :: 45%N :: p) x). assert (W : w = 45%N :: 45%N :: tl (tl w)) by (unfold w; destruct x; reflexivity).
    intros G A Ng P. clearbody w. destruct w as [|c1 [|c2 t]]; [discriminate W|discriminate W|]. cbn [tl] in W. injection W as -> ->.
    unfold parse_optional. change (negb (45 =? hyphen)%N) with false. cbn [negb]. rewrite A, P, Ng, G.
    destruct x as [v|]; [rewrite (action_none l _ H)|]; destruct (existsb _ _); reflexivity.
  Qed.
End Words.
