(** * The command line parser: command lines *)
From Verif Require Import PyBase Json_Model Json_Proofs Settings_Model Cli_Model Main_Model Main_Spec Argparse_Model Argparse_Spec Argparse_Proofs Argparse_Proofs2
  Argparse_Proofs3 Argparse_Proofs4.
Open Scope list_scope.

Lemma setting_from a n : forall r, fold_left (fun r x => if String.eqb (fst x) n then Some (snd x) else r) a r =
  match setting a n with Some v => Some v | None => r end.
Proof.
  unfold setting. induction a as [|[k v] a IH]; intro r; [reflexivity|]. cbn [fold_left fst snd]. rewrite (IH (if String.eqb k n then Some v else r)), (IH (if String.eqb k n then Some v else None)).
  destruct (fold_left _ a None); [reflexivity|]. destruct (String.eqb k n); reflexivity.
Qed.
Lemma setting_app a b n : setting (a ++ b) n = match setting b n with Some v => Some v | None => setting a n end.
Proof. unfold setting at 1. rewrite fold_left_app. exact (setting_from b n (setting a n)). Qed.
Lemma setting_cons k v a n : setting ((k, v) :: a) n = match setting a n with Some w => Some w | None => if String.eqb k n then Some v else None end.
Proof. unfold setting at 1. cbn [fold_left fst snd]. apply setting_from. Qed.
Lemma get_merge a : forall ns n, dget String.eqb n (merge ns a) = match setting a n with Some v => Some v | None => dget String.eqb n ns end.
Proof.
  induction a as [|[k v] a IH]; intros ns n; [reflexivity|]. unfold merge in *. cbn [fold_left fst snd]. rewrite IH, setting_cons. destruct (setting a n); [reflexivity|].
  destruct (String.eqb_spec k n) as [->|Ne].
  - apply (dget_dset_same String.eqb String.eqb_eq).
  - apply (dget_dset_other String.eqb String.eqb_eq). exact Ne.
Qed.
Lemma setting_unique a n : NoDup (map fst a) -> setting a n = dget String.eqb n a.
Proof.
  induction a as [|[k v] a IH]; intro H; [reflexivity|]. inversion H as [|x l Nx Nd]; subst. rewrite setting_cons, (IH Nd). cbn [dget]. rewrite (String.eqb_sym k n).
  destruct (String.eqb_spec n k) as [->|Ne]; [|destruct (dget String.eqb n a); reflexivity].
  destruct (dget String.eqb k a) as [w|] eqn:D; [|reflexivity]. exfalso. apply Nx. apply (dget_In String.eqb String.eqb_eq) in D. apply (in_map fst) in D. exact D.
Qed.
Lemma merge_unique a : forall ns, NoDup (map fst ns) -> NoDup (map fst (merge ns a)).
Proof. induction a as [|[k v] a IH]; intros ns H; [exact H|]. unfold merge in *. cbn [fold_left]. apply IH. apply (dset_NoDup String.eqb String.eqb_eq). exact H. Qed.

Section Lines.
  Variable int_of : text -> option Z.
  Variable unicode_digit : N -> bool.
  Notation parse_line := (parse_args int_of unicode_digit).
  Notation pieces := (pieces int_of unicode_digit).
  Notation means := (means int_of unicode_digit).
  Notation sub_action := (subcommand_action int_of unicode_digit).

  Definition defaults (l : level) : namespace := flat_map default_of (actions l).
  Lemma defaults_unique l : NoDup (map fst (defaults l)).
  Proof. destruct l as [|[| |]]; vm_compute; repeat constructor; cbn; intuition discriminate. Qed.
  Lemma names_of l ws a n v : pieces l ws a -> setting a n = Some v -> exists e, In e (entries l) /\ e_name e = n /\ e_takes e <> Ends.
  Proof.
    intro P. revert v. induction P as [|ws a rest b P _ IH]; intros v H; [discriminate|]. rewrite setting_app in H. destruct (setting b n) as [w|]; [exact (IH w eq_refl)|]. clear IH.
    destruct P as [e w D T|es cs Hes F|e ch w v0 D T A V|e ch w v0 D T A|e w v0 u x y D T V U X Y].
    2:{ clear Hes. induction F as [|e c es cs (I & T & L) F IHF]; [discriminate|]. cbn [map] in H. rewrite setting_cons in H.
        destruct (setting (map _ es) n) as [q|]; [apply IHF; exact H|]. destruct (String.eqb_spec (e_name e) n) as [E|]; [|discriminate]. exists e. split; [exact I|]. split; [exact E|]. rewrite T. discriminate. }
    all: rewrite setting_cons in H; cbn in H; destruct (String.eqb_spec (e_name e) n) as [E|]; [|discriminate]; exists e; split; [apply D|]; split; [exact E|]; rewrite T; discriminate.
  Qed.

  (** ** What is accepted *)
  Lemma top_level ws ns : parse_line ws = Parsed ns -> exists m, classify unicode_digit top_actions ws = Some m /\
    parse_words int_of top_actions (Some sub_action) m (defaults Top) = (Parsed ns, []).
  Proof.
    unfold parse_args, parse_known_args. destruct (classify unicode_digit top_actions ws) as [m|]; [|discriminate]. intro H. exists m. split; [reflexivity|]. fold (defaults Top) in H |- *.
    change (flat_map default_of top_actions) with (defaults Top) in *. destruct (parse_words _ _ _ _ _) as [[c|ns'] [|]]; try discriminate. now injection H as ->.
  Qed.
  Lemma find_sub name s : find (fun s => text_eqb name (fst s)) subparsers = Some s -> exists c, name = sub_name c /\ snd s = actions (Sub c).
  Proof.
    intro H. apply find_some in H as [I E]. apply text_eqb_eq in E. subst name. cbn in I. destruct I as [<-|[<-|[<-|[]]]]; [exists View|exists Change|exists Plugin]; split; reflexivity.
  Qed.
  Lemma sub_found c : find (fun s => text_eqb (sub_name c) (fst s)) subparsers = Some (sub_name c, actions (Sub c)).
  Proof. destruct c; reflexivity. Qed.
  Lemma attribute_top a n ws : pieces Top ws a -> dget String.eqb n (merge (defaults Top) a) = attribute None a n.
  Proof.
    intros _. rewrite get_merge. unfold attribute. destruct (setting a n); [reflexivity|]. unfold unset. change (defaults Top) with [("test"%string, BoolV false)]. cbn [dget entries app find e_name e_takes off_value].
    rewrite (String.eqb_sym "test" n).
    destruct (String.eqb_spec "help" n) as [<-|]; [reflexivity|]. destruct (String.eqb_spec "version" n) as [<-|]; [reflexivity|]. destruct (String.eqb n "test"); reflexivity.
  Qed.
  Lemma top_only ws a n v : pieces Top ws a -> setting a n = Some v -> n = "test"%string.
  Proof. intros P H. destruct (names_of Top ws a n v P H) as (e & I & <- & T). cbn in I. destruct I as [<-|[<-|[<-|[]]]]; [destruct (T eq_refl)|destruct (T eq_refl)|reflexivity]. Qed.
  Lemma unset_sub c n : unset (Some c) n = match dget String.eqb n (defaults (Sub c)) with Some v => Some v | None => dget String.eqb n (defaults Top) end.
  Proof.
    unfold unset. change (defaults Top) with [("test"%string, BoolV false)]. destruct c;
      [change (defaults (Sub View)) with [("print"%string, BoolV false)]
      |change (defaults (Sub Change)) with (map (fun k => (k, NoneV)) ["container"; "algorithm"; "estimator"; "log_level"; "verbose"; "precision"]%string)
      |change (defaults (Sub Plugin)) with [("list", BoolV false); ("modules", BoolV false); ("install", NoneV); ("uninstall", NoneV)]%string];
    cbn [map dget entries app find e_name e_takes off_value];
    repeat match goal with |- context [String.eqb ?k n] => rewrite (String.eqb_sym k n); destruct (String.eqb_spec n k) as [->|]; [reflexivity|] end; reflexivity.
  Qed.
  Lemma attribute_sub c ws a rest b n : pieces Top ws a -> pieces (Sub c) rest b ->
    dget String.eqb n (merge (merge (defaults Top) a) (merge (defaults (Sub c)) b)) = attribute (Some c) (a ++ b) n.
  Proof.
    intros P Q. rewrite get_merge, (setting_unique (merge (defaults (Sub c)) b)) by (apply merge_unique; apply defaults_unique). rewrite !get_merge. unfold attribute. rewrite setting_app, unset_sub.
    destruct (setting b n) as [v|]; [reflexivity|]. destruct (setting a n) as [w|] eqn:S.
    - assert (n = "test"%string) as -> by exact (top_only ws a n w P S). destruct c; reflexivity.
    - destruct (dget String.eqb n (defaults (Sub c))); reflexivity.
  Qed.
  Lemma accepted_means ws ns : parse_line ws = Parsed ns -> exists sub a, means ws sub a /\ forall n, dget String.eqb n ns = attribute sub a n.
  Proof.
    intro H. apply top_level in H as (m & C & H).
    destruct (words_accepted int_of unicode_digit Top (Some sub_action) (List.length ws) ws m (defaults Top) ns (le_n _) C H) as [(a & P & ->)|(f & ws1 & a & w & rest & Hf & P & -> & K)].
    - exists None, a. split; [constructor; exact P|]. intro n. exact (attribute_top a n ws P).
    - injection Hf as <-. unfold subcommand_action in K. destruct (find _ subparsers) as [[nm acts]|] eqn:F; [|discriminate]. apply find_sub in F as (c & -> & E). cbn [snd] in E. subst acts.
      unfold parse_known_args in K. destruct (classify unicode_digit (actions (Sub c)) rest) as [m2|] eqn:C2; [|discriminate].
      change (flat_map default_of (actions (Sub c))) with (defaults (Sub c)) in K.
      destruct (parse_words int_of (actions (Sub c)) None m2 (defaults (Sub c))) as [[cd|sub] ex] eqn:W; [discriminate|]. injection K as <- ->.
      destruct (words_accepted int_of unicode_digit (Sub c) None (List.length rest) rest m2 _ _ (le_n _) C2 W) as [(b & Q & ->)|(f & ? & ? & ? & ? & Hf & _)]; [|discriminate].
      exists (Some c), (a ++ b). split; [constructor; assumption|]. intro n. exact (attribute_sub c ws1 a rest b n P Q).
  Qed.

  (** ** What is understood *)
  (** At the top level the words after a subcommand only have to be unambiguous. *)
  Lemma read_class l w : w <> [45%N; 45%N] -> ~ ambiguous w -> exists c, parse_optional unicode_digit (actions l) w = Class c.
  Proof.
    intros Nd H. destruct w as [|c0 w]; [eexists; reflexivity|]. destruct (N.eq_dec c0 45) as [->|H0].
    2:{ unfold parse_optional. rewrite (proj2 (N.eqb_neq c0 hyphen) H0). eexists; reflexivity. }
    destruct w as [|c r]; [exists Argument; apply read_value; right; left; reflexivity|]. destruct (N.eq_dec c 45) as [->|Hc].
    - destruct (two_split r) as [[s ->]|[-> |(p & y & Hp & Np & E)]]; [destruct H; exists s; reflexivity| |].
      + congruence.
      + rewrite E. destruct (denoted_or_not l (45%N :: 45%N :: p)) as [[e D]|D].
        * destruct (read_denoted unicode_digit l e _ D) as (b & _ & L & R1 & R2). destruct y; cbn [glued]; [rewrite R2|rewrite R1]; eexists; reflexivity.
        * rewrite (read_two unicode_digit l p y Np Hp D). eexists; reflexivity.
    - rewrite (read_one unicode_digit l c r Hc). destruct (action_of _ _); eexists; reflexivity.
  Qed.
  Lemma read_class_not l w : ambiguous w -> parse_optional unicode_digit (actions l) w = Ambiguous.
  Proof. intros [r ->]. apply read_ambiguous. Qed.
  Lemma classify_all l ws : Forall (fun w => ~ ambiguous w) ws -> exists m, classify unicode_digit (actions l) ws = Some m.
  Proof.
    induction 1 as [|w ws H _ [m IH]]; [eexists; reflexivity|]. cbn [classify]. destruct (text_eqb w _) eqn:E; [eexists; reflexivity|].
    assert (Nd : w <> [45%N; 45%N]) by (intros ->; discriminate E). destruct (read_class l w Nd H) as [c R]. rewrite R, IH. eexists; reflexivity.
  Qed.
  Lemma ambiguous_dec w : ambiguous w \/ ~ ambiguous w.
  Proof.
    destruct w as [|a [|b [|c r]]]; try (right; intros [s E]; discriminate). destruct (N.eq_dec a 45) as [->|N1]; [|right; intros [s E]; injection E as E _; exact (N1 E)].
    destruct (N.eq_dec b 45) as [->|N2]; [|right; intros [s E]; injection E as E _; exact (N2 E)]. destruct (N.eq_dec c 61) as [->|N3]; [left; exists r; reflexivity|].
    right; intros [s E]; injection E as E _; exact (N3 E).
  Qed.
  Lemma classified_words l ws : (exists m, classify unicode_digit (actions l) ws = Some m) -> exists m, classify unicode_digit top_actions ws = Some m.
  Proof.
    induction ws as [|w ws IH]; intros [m H]; [eexists; reflexivity|]. apply classify_first in H as [[-> ->]|[Nd (c & m' & R & C & ->)]]; [eexists; reflexivity|].
    destruct (IH (ex_intro _ m' C)) as [m2 C2]. destruct (ambiguous_dec w) as [A|A]; [rewrite (read_class_not l w A) in R; discriminate|].
    destruct (read_class Top w Nd A) as [c2 R2]. exists ((w, c2) :: m2). etransitivity; [exact (classify_word unicode_digit top_actions w c2 ws Nd R2)|]. rewrite C2. reflexivity.
  Qed.
  Lemma sub_word c more m : classify unicode_digit top_actions more = Some m -> classify unicode_digit top_actions (sub_name c :: more) = Some ((sub_name c, Argument) :: m).
  Proof. intro C. destruct c; cbn [classify]; rewrite C; reflexivity. Qed.
  Lemma pieces_parsed l ws a : pieces l ws a -> parse_known_args int_of unicode_digit (actions l) None ws = (Parsed (merge (defaults l) a), []) /\ exists m, classify unicode_digit (actions l) ws = Some m.
  Proof.
    intro P. destruct (pieces_run int_of unicode_digit l ws a P) as (cs & C & W). specialize (C []). rewrite !app_nil_r in C. cbn [classify] in C.
    unfold parse_known_args. rewrite C, W. split; [reflexivity|]. eexists; reflexivity.
  Qed.
  Lemma means_accepted ws sub a : means ws sub a -> exists ns, parse_line ws = Parsed ns /\ forall n, dget String.eqb n ns = attribute sub a n.
  Proof.
    intros [ws' a' P|ws' a' c rest b P Q].
    - destruct (pieces_run int_of unicode_digit Top ws' a' P) as (cs & C & W). specialize (C []). rewrite !app_nil_r in C. cbn [classify] in C.
      exists (merge (defaults Top) a'). split; [|intro n; exact (attribute_top a' n ws' P)].
      unfold parse_args, parse_known_args. change top_actions with (actions Top). rewrite C, W. reflexivity.
    - destruct (pieces_run int_of unicode_digit Top ws' a' P) as (cs & C & W). destruct (pieces_parsed (Sub c) rest b Q) as [K M]. destruct (classified_words (Sub c) rest M) as [m Cm].
      exists (merge (merge (defaults Top) a') (merge (defaults (Sub c)) b)). split; [|intro n; exact (attribute_sub c ws' a' rest b n P Q)].
      cbn [actions] in C, W. unfold parse_args, parse_known_args. change (flat_map default_of top_actions) with (defaults Top). rewrite C, (sub_word c rest m Cm), W. cbn [parse_words].
      rewrite (map_fst_classify _ _ _ _ Cm). unfold subcommand_action. rewrite (sub_found c), K. reflexivity.
  Qed.
End Lines.
