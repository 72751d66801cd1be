(** * The command line parser: options with their values *)
From Verif Require Import PyBase Json_Model Json_Proofs Settings_Model Cli_Model Main_Model Main_Spec Argparse_Model Argparse_Spec Argparse_Proofs Argparse_Proofs2
  Argparse_Proofs3.
Open Scope list_scope.

Definition flag (e : entry) : string * value := (e_name e, BoolV true).
Lemma merge_app ns a b : merge ns (a ++ b) = merge (merge ns a) b.
Proof. apply fold_left_app. Qed.
Lemma letter_ok l e c : In e (entries l) -> e_letter e = Some c -> c <> 45%N /\ c <> 61%N /\ (e_takes e = Nothing \/ e_takes e = Ends).
Proof.
  intros I L. destruct l as [|[| |]]; cbn in I; repeat (destruct I as [<-|I]; [first [discriminate L|injection L as <-; split; [discriminate|]; split; [discriminate|]; cbn; auto]|]); destruct I.
Qed.
Lemma letter_action l e c : In e (entries l) -> e_letter e = Some c -> exists a, action_of (actions l) [45%N; c] = Some a /\ like a e.
Proof.
  intros I L. destruct l as [|[| |]]; cbn in I; repeat (destruct I as [<-|I]; [first [discriminate L|injection L as <-; eexists; split; [vm_compute; reflexivity|]; repeat split; cbn; auto]|]); destruct I.
Qed.
Lemma denoted_not_dashes l e w : denotes l e w -> w <> [45%N; 45%N] /\ exists c r, w = 45%N :: c :: r.
Proof.
  intros [I [(c & L & ->)|(p & r & Hp & E & ->)]].
  - destruct (letter_ok l e c I L) as [H _]. split; [intro E; injection E as E; exact (H E)|]. eauto.
  - split; [destruct p; [congruence|discriminate]|]. cbn. eauto.
Qed.
Lemma not_dashes_eqb w : w <> [45%N; 45%N] -> text_eqb w [hyphen; hyphen] = false.
Proof. intro H. destruct (text_eqb w [hyphen; hyphen]) eqn:E; [|reflexivity]. apply text_eqb_eq in E. contradiction. Qed.

Section Pieces.
  Variable int_of : text -> option Z.
  Variable unicode_digit : N -> bool.
  Notation read := (parse_optional unicode_digit).
  Notation words := (parse_words int_of).
  Notation cls := (classify unicode_digit).
  Notation take := (take_action int_of).
  Notation takes_ := (take_actions int_of).

  Lemma take_flag a e ns : like a e -> e_takes e = Nothing -> take a [] ns = Parsed (merge ns [flag e]).
  Proof. intros (D & _ & K) T. rewrite T in K. unfold take_action. rewrite K, D. reflexivity. Qed.
  Lemma take_end a e vs ns : like a e -> e_takes e = Ends -> take a vs ns = Exits 0.
  Proof. intros (D & _ & K) T. rewrite T in K. unfold take_action. destruct K as [-> | ->]; reflexivity. Qed.
  Lemma allowed_iff ch v : allowed ch v <-> match option_map (map txt) ch with Some cs => existsb (text_eqb v) cs = true | None => True end.
  Proof.
    destruct ch as [cs|]; cbn; [|tauto]. rewrite existsb_exists. split.
    - intros (c & I & ->). exists (txt c). split; [now apply in_map|now apply text_eqb_eq].
    - intros (x & I & E). apply text_eqb_eq in E. subst x. apply in_map_iff in I as (c & <- & I). exists c. split; [exact I|reflexivity].
  Qed.
  Lemma take_word a e ch v ns : like a e -> e_takes e = AWord ch -> allowed ch v -> take a [v] ns = Parsed (merge ns [(e_name e, TextV v)]).
  Proof.
    intros (D & _ & K) T A. rewrite T in K. unfold take_action. cbn in K. rewrite K, D. apply allowed_iff in A. destruct ch as [cs|]; cbn in A |- *; [rewrite A|]; reflexivity.
  Qed.
  Lemma take_ints a e v u x y ns : like a e -> e_takes e = TwoIntegers -> int_of v = Some x -> int_of u = Some y ->
    take a [v; u] ns = Parsed (merge ns [(e_name e, IntsV [x; y])]).
  Proof. intros (D & _ & K) T A B. rewrite T in K. unfold take_action. rewrite K, D, A, B. reflexivity. Qed.
  Lemma arity_flag a e : like a e -> e_takes e = Nothing \/ e_takes e = Ends -> arity (act_kind a) = 0%nat.
  Proof. intros (_ & _ & K) [T|T]; rewrite T in K; [rewrite K; reflexivity|]. destruct K as [-> | ->]; reflexivity. Qed.
  Lemma arity_word a e ch : like a e -> e_takes e = AWord ch -> arity (act_kind a) = 1%nat.
  Proof. intros (_ & _ & K) T; rewrite T in K. cbn in K. rewrite K. reflexivity. Qed.
  Lemma arity_ints a e : like a e -> e_takes e = TwoIntegers -> arity (act_kind a) = 2%nat.
  Proof. intros (_ & _ & K) T; rewrite T in K. cbn in K. rewrite K. reflexivity. Qed.

  (** ** Letters sharing a hyphen *)
  Definition is_flag (l : level) (e : entry) (c : N) : Prop := In e (entries l) /\ e_takes e = Nothing /\ e_letter e = Some c.
  Lemma unfold_step l a e c e' cs : like a e -> e_takes e = Nothing \/ e_takes e = Ends -> In e' (entries l) -> e_letter e' = Some c ->
    exists a', like a' e' /\ unfold_option (actions l) a false false (c :: cs) =
      before (a, []) match cs with
                     | [] => Waiting [] a'
                     | d :: r => if N.eqb d equals then unfold_option (actions l) a' false true r else unfold_option (actions l) a' false false cs
                     end.
  Proof.
    intros La T I L. destruct (letter_action l e' c I L) as (a' & A & La'). exists a'. split; [exact La'|]. destruct (letter_ok l e' c I L) as (Hc & _).
    cbn [unfold_option]. rewrite (arity_flag a e La T). assert (E : N.eqb c hyphen = false) by (apply N.eqb_neq; exact Hc). rewrite E. cbn [orb].
    change [hyphen; c] with [45%N; c]. rewrite A. assert (T2 : two_dashes [45%N; c] = false) by (cbn; rewrite E; reflexivity). rewrite T2. reflexivity.
  Qed.
  Lemma unfold_letters l cs : forall es, Forall2 (is_flag l) es cs -> cs <> [] -> forall a e, like a e -> e_takes e = Nothing ->
    exists m a', unfold_option (actions l) a false false cs = Waiting m a' /\ arity (act_kind a') = 0%nat /\
      forall ns, takes_ (m ++ [(a', [])]) ns = Parsed (merge ns (map flag (e :: es))).
  Proof.
    induction cs as [|c cs IH]; intros es F Hc a e La T; [congruence|]. inversion F as [|e' c' es' cs' (I & T' & L) F']; subst.
    destruct (unfold_step l a e c e' cs La (or_introl T) I L) as (a' & La' & ->). destruct cs as [|d cs].
    - inversion F'; subst. exists [(a, [])], a'. split; [reflexivity|]. split; [exact (arity_flag a' e' La' (or_introl T'))|]. intro ns. cbn [app map take_actions].
      rewrite (take_flag a e ns La T). rewrite (take_flag a' e' _ La' T'). reflexivity.
    - inversion F' as [|e2 d' es2 cs2 (I2 & T2 & L2) F2]; subst. destruct (letter_ok l e2 d I2 L2) as (_ & Hd & _).
      assert (E : N.eqb d equals = false) by (apply N.eqb_neq; exact Hd). rewrite E.
      destruct (IH (e2 :: es2) F' ltac:(discriminate) a' e' La' T') as (m & a2 & -> & A2 & K). exists ((a, []) :: m), a2. split; [reflexivity|]. split; [exact A2|].
      intro ns. cbn [app take_actions]. rewrite (take_flag a e ns La T), K. reflexivity.
  Qed.
  Lemma unfold_letters_inv l r : forall a e, like a e -> e_takes e = Nothing \/ e_takes e = Ends ->
    match unfold_option (actions l) a false false r with
    | Complete _ => False
    | Waiting m a' => arity (act_kind a') = 0%nat /\
        exists es, Forall2 (fun e c => In e (entries l) /\ e_letter e = Some c) es r /\
        forall ns ns', takes_ (m ++ [(a', [])]) ns = Parsed ns' -> Forall (fun e => e_takes e = Nothing) (e :: es) /\ ns' = merge ns (map flag (e :: es))
    | _ => True
    end.
  Proof.
    induction r as [|c r IH]; intros a e La T.
    - cbn [unfold_option]. rewrite (arity_flag a e La T). exact I.
    - destruct (N.eqb_spec c hyphen) as [Hc|Hc].
      { cbn [unfold_option]. rewrite (arity_flag a e La T), Hc. exact I. }
      destruct (action_of (actions l) [45%N; c]) as [x|] eqn:A.
      2:{ cbn [unfold_option]. rewrite (arity_flag a e La T). rewrite (proj2 (N.eqb_neq c hyphen) Hc). cbn [orb]. change [hyphen; c] with [45%N; c]. rewrite A. exact I. }
      destruct (letter_cases l x c A) as (e' & I & _ & L). clear x A. destruct (letter_ok l e' c I L) as (_ & _ & T').
      destruct (unfold_step l a e c e' r La T I L) as (a' & La' & ->). destruct r as [|d r].
      + cbn [before]. split; [exact (arity_flag a' e' La' T')|]. exists [e']. split; [constructor; [split; assumption|constructor]|].
        intros ns ns'. cbn [app take_actions]. destruct T as [T|T]; [rewrite (take_flag a e ns La T)|rewrite (take_end a e [] ns La T); discriminate].
        destruct T' as [T'|T']; [rewrite (take_flag a' e' _ La' T')|rewrite (take_end a' e' [] _ La' T'); discriminate].
        intro H. injection H as <-. split; [repeat constructor; assumption|reflexivity].
      + destruct (N.eqb d equals).
        { destruct r; cbn [unfold_option]; rewrite (arity_flag a' e' La' T'); exact Logic.I. }
        specialize (IH a' e' La' T'). destruct (unfold_option (actions l) a' false false (d :: r)) as [m|m a2|m x|]; cbn [before]; try exact IH; try exact Logic.I.
        destruct IH as [Ar (es & F & K)]. split; [exact Ar|]. exists (e' :: es). split; [constructor; [split; assumption|exact F]|].
        intros ns ns'. cbn [app take_actions]. destruct T as [T|T]; [rewrite (take_flag a e ns La T)|rewrite (take_end a e [] ns La T); discriminate].
        intro H. destruct (K _ _ H) as [F2 ->]. split; [constructor; assumption|reflexivity].
  Qed.

  (** ** Pieces are read as such *)
  Lemma classify_word P w c more : w <> [45%N; 45%N] -> read P w = Class c ->
    cls P (w :: more) = match cls P more with Some m => Some ((w, c) :: m) | None => None end.
  Proof. intros N R. cbn [classify]. rewrite (not_dashes_eqb w N), R. reflexivity. Qed.
  Lemma piece_run l ws asg : piece int_of unicode_digit l ws asg -> exists cs,
    (forall more, cls (actions l) (ws ++ more) = match cls (actions l) more with Some m => Some (cs ++ m) | None => None end) /\
    (forall pos m ns, words (actions l) pos (cs ++ m) ns = words (actions l) pos m (merge ns asg)).
  Proof.
    intros [e w D T|es cs Hes F|e ch w v D T A V|e ch w v D T A|e w v u x y D T V U X Y].
    - destruct (read_denoted unicode_digit l e w D) as (a & _ & La & R & _). exists [(w, OptionWord (Known a (two_dashes w) None))]. split.
      + intro more. cbn [app]. apply classify_word; [apply (denoted_not_dashes l e w D)|exact R].
      + intros pos m ns. cbn [app parse_words consume]. rewrite (arity_flag a e La (or_introl T)). cbn [app take_actions]. rewrite (take_flag a e ns La T). reflexivity.
    - inversion F as [|e c es' cs' (I & T & L) F']; subst; [congruence|]. destruct (letter_ok l e c I L) as (Hc & _). destruct (letter_action l e c I L) as (a & A & La).
      pose proof (read_one unicode_digit l c cs' Hc) as R. rewrite A in R. exists [(45%N :: c :: cs', OptionWord (Known a false (attached cs')))]. split.
      + intro more. cbn [app]. apply classify_word; [intro E; injection E as E _; exact (Hc E)|exact R].
      + intros pos m ns. cbn [app parse_words]. destruct cs' as [|d cs'].
        * inversion F'; subst. cbn [attached consume]. rewrite (arity_flag a e La (or_introl T)). cbn [app take_actions]. rewrite (take_flag a e ns La T). reflexivity.
        * inversion F' as [|e2 d' es2 cs2 (I2 & T2 & L2) F2]; subst. destruct (letter_ok l e2 d I2 L2) as (_ & Hd & _).
          unfold attached. rewrite (proj2 (N.eqb_neq d 61) Hd). cbn [consume].
          destruct (unfold_letters l _ _ F' ltac:(discriminate) a e La T) as (q & a2 & -> & A2 & K). rewrite A2, K. reflexivity.
    - destruct (read_denoted unicode_digit l e w D) as (a & _ & La & R & _). apply read_value in V as [V1 V2].
      exists [(w, OptionWord (Known a (two_dashes w) None)); (v, Argument)]. split.
      + intro more. cbn [app]. rewrite (classify_word _ w _ _ (proj1 (denoted_not_dashes l e w D)) R), (classify_word _ v _ _ V1 V2). destruct (cls (actions l) more); reflexivity.
      + intros pos m ns. cbn [app parse_words consume]. rewrite (arity_word a e ch La T). cbn [app take_actions]. rewrite (take_word a e ch v ns La T A). reflexivity.
    - destruct (read_denoted unicode_digit l e w D) as (a & _ & La & _ & R). exists [(w ++ 61%N :: v, OptionWord (Known a (two_dashes w) (Some (true, v))))]. split.
      + intro more. cbn [app]. apply classify_word; [|apply R]. destruct (denoted_not_dashes l e w D) as [_ (c & r & ->)]. destruct r; discriminate.
      + intros pos m ns. cbn [app parse_words consume]. assert (U : unfold_option (actions l) a (two_dashes w) true v = Complete [(a, [v])]).
        { destruct v; cbn [unfold_option]; rewrite (arity_word a e ch La T); reflexivity. }
        rewrite U. cbn [take_actions]. rewrite (take_word a e ch v ns La T A). reflexivity.
    - destruct (read_denoted unicode_digit l e w D) as (a & _ & La & R & _). apply read_value in V as [V1 V2]. apply read_value in U as [U1 U2].
      exists [(w, OptionWord (Known a (two_dashes w) None)); (v, Argument); (u, Argument)]. split.
      + intro more. cbn [app]. rewrite (classify_word _ w _ _ (proj1 (denoted_not_dashes l e w D)) R), (classify_word _ v _ _ V1 V2), (classify_word _ u _ _ U1 U2).
        destruct (cls (actions l) more); reflexivity.
      + intros pos m ns. cbn [app parse_words consume]. rewrite (arity_ints a e La T). cbn [app take_actions]. rewrite (take_ints a e v u x y ns La T X Y). reflexivity.
  Qed.
  Lemma pieces_run l ws a : pieces int_of unicode_digit l ws a -> exists cs,
    (forall more, cls (actions l) (ws ++ more) = match cls (actions l) more with Some m => Some (cs ++ m) | None => None end) /\
    (forall pos m ns, words (actions l) pos (cs ++ m) ns = words (actions l) pos m (merge ns a)).
  Proof.
    induction 1 as [|ws a rest b P _ (cs2 & C2 & W2)].
    - exists []. split; [intro more; cbn [app]; destruct (cls _ more); reflexivity|reflexivity].
    - destruct (piece_run l ws a P) as (cs & C & W). exists (cs ++ cs2). split.
      + intro more. rewrite <- app_assoc, C, C2. destruct (cls _ more); [rewrite app_assoc|]; reflexivity.
      + intros pos m ns. rewrite <- app_assoc, W, W2, merge_app. reflexivity.
  Qed.

  (** ** and nothing else is accepted *)
  Lemma read_known l w a two x : read (actions l) w = Class (OptionWord (Known a two x)) ->
    exists e, like a e /\
    ((x = None /\ denotes l e w) \/
     (exists d v, x = Some (true, v) /\ w = d ++ 61%N :: v /\ denotes l e d) \/
     (exists c d r, x = Some (false, d :: r) /\ two = false /\ w = 45%N :: c :: d :: r /\ In e (entries l) /\ e_letter e = Some c)).
  Proof.
    intro R. destruct w as [|c0 w]; [discriminate|]. destruct (N.eq_dec c0 45) as [->|H0].
    2:{ unfold parse_optional in R. rewrite (proj2 (N.eqb_neq c0 hyphen) H0) in R. discriminate. }
    destruct w as [|c r].
    { unfold parse_optional in R. change (negb (45 =? hyphen)%N) with false in R. cbn match in R. rewrite (action_none l [45%N]) in R; [discriminate|].
      intros e [_ [(y & _ & W)|(p & r' & _ & _ & W)]]; discriminate. }
    destruct (N.eq_dec c 45) as [->|Hc].
    - destruct (two_split r) as [[s ->]|[-> |(p & y & Hp & Np & E)]].
      + rewrite read_ambiguous in R. discriminate.
      + exfalso. clear - R. destruct l as [|[| |]]; vm_compute in R; discriminate.
      + rewrite E in R |- *. destruct (denoted_or_not l (45%N :: 45%N :: p)) as [[e D]|D].
        * destruct (read_denoted unicode_digit l e _ D) as (b & _ & L & R1 & R2). exists e. destruct y as [v|]; cbn [glued] in R |- *.
          -- rewrite R2 in R. injection R as <- <- <-. split; [exact L|]. right. left. exists (45%N :: 45%N :: p), v. repeat split; try reflexivity; apply D.
          -- rewrite R1 in R. injection R as <- <- <-. split; [exact L|]. left. split; [reflexivity|exact D].
        * rewrite (read_two unicode_digit l p y Np Hp D) in R. destruct (existsb _ _); discriminate.
    - rewrite (read_one unicode_digit l c r Hc) in R. destruct (action_of (actions l) [45%N; c]) as [b|] eqn:A.
      + injection R as <- <- <-. destruct (letter_cases l b c A) as (e & I & L & Lc). exists e. split; [exact L|]. destruct r as [|d r]; cbn [attached].
        * left. split; [reflexivity|]. split; [exact I|]. left. exists c. split; [exact Lc|reflexivity].
        * destruct (N.eqb_spec d 61) as [->|Hd].
          -- right. left. exists [45%N; c], r. split; [reflexivity|]. split; [reflexivity|]. split; [exact I|]. left. exists c. split; [exact Lc|reflexivity].
          -- right. right. exists c, d, r. repeat split; assumption.
      + unfold leftover in R. destruct (negative_number _ _); [discriminate|]. destruct (existsb _ _); discriminate.
  Qed.
  (** The first word of a classified list. *)
  Lemma classify_first P w ws m : cls P (w :: ws) = Some m ->
    (w = [45%N; 45%N] /\ m = (w, DoubleDash) :: map (fun v => (v, Argument)) ws) \/
    (w <> [45%N; 45%N] /\ exists c m', read P w = Class c /\ cls P ws = Some m' /\ m = (w, c) :: m').
  Proof.
    cbn [classify]. destruct (text_eqb w [hyphen; hyphen]) eqn:E.
    - apply text_eqb_eq in E. subst w. intro H. injection H as <-. left. split; reflexivity.
    - intro H. right. split; [intros ->; discriminate E|]. destruct (read P w) as [c|]; [|discriminate]. destruct (cls P ws) as [m'|]; [|discriminate].
      injection H as <-. exists c, m'. repeat split.
  Qed.
  Lemma read_double l : read (actions l) [45%N; 45%N] <> Class Argument.
  Proof. destruct l as [|[| |]]; vm_compute; discriminate. Qed.
  (** A word classified as an argument that follows a regular word is a value. *)
  Lemma classify_value l ws v m : cls (actions l) ws = Some ((v, Argument) :: m) -> exists ws', ws = v :: ws' /\ value_word unicode_digit l v /\ cls (actions l) ws' = Some m.
  Proof.
    destruct ws as [|w ws]; [discriminate|]. intro H. apply classify_first in H as [[_ H]|[N (c & m' & R & C & H)]]; [discriminate|].
    injection H as <- <- <-. exists ws. split; [reflexivity|]. split; [|exact C]. apply read_value. split; assumption.
  Qed.
  Lemma map_fst_classify P ws : forall m, cls P ws = Some m -> map fst m = ws.
  Proof.
    induction ws as [|w ws IH]; intros m H; [injection H as <-; reflexivity|]. apply classify_first in H as [[_ ->]|[_ (c & m' & _ & C & ->)]]; cbn [map fst].
    - rewrite map_map. cbn [fst]. rewrite map_id. reflexivity.
    - rewrite (IH m' C). reflexivity.
  Qed.
  Lemma then_take_parsed p f ns : then_take p f = (Parsed ns, []) -> exists ns', p = Parsed ns' /\ f ns' = (Parsed ns, []).
  Proof. destruct p as [c|ns']; cbn; [discriminate|]. eauto. Qed.
  Lemma with_extra_not es e k ns : with_extra (e :: es) k <> (Parsed ns, []).
  Proof. unfold with_extra. intro H. discriminate. Qed.

  Definition accepted_as (l : level) (pos : option (list text -> namespace -> known)) (ws : list text) (ns ns' : namespace) : Prop :=
    (exists a, pieces int_of unicode_digit l ws a /\ ns' = merge ns a) \/
    (exists f ws1 a w rest, pos = Some f /\ pieces int_of unicode_digit l ws1 a /\ ws = ws1 ++ w :: rest /\ f (w :: rest) (merge ns a) = (Parsed ns', [])).
  Lemma accepted_more l pos ws a rest ns ns' : piece int_of unicode_digit l ws a -> accepted_as l pos rest (merge ns a) ns' -> accepted_as l pos (ws ++ rest) ns ns'.
  Proof.
    intros P [(b & Q & ->)|(f & ws1 & b & w & r & Hf & Q & -> & K)].
    - left. exists (a ++ b). split; [constructor; assumption|]. symmetry. apply merge_app.
    - right. exists f, (ws ++ ws1), (a ++ b), w, r. split; [exact Hf|]. split; [constructor; assumption|]. split; [now rewrite app_assoc|]. now rewrite merge_app.
  Qed.
  Lemma words_accepted l pos n : forall ws m ns ns', (List.length ws <= n)%nat -> cls (actions l) ws = Some m -> words (actions l) pos m ns = (Parsed ns', []) ->
    accepted_as l pos ws ns ns'.
  Proof.
    induction n as [|n IH]; intros ws m ns ns' Hn C H.
    { destruct ws; [|cbn in Hn; lia]. injection C as <-. cbn in H. injection H as <-. left. exists []. split; [constructor|reflexivity]. }
    destruct ws as [|w ws]; [injection C as <-; cbn in H; injection H as <-; left; exists []; split; [constructor|reflexivity]|]. cbn [List.length] in Hn.
    pose proof (map_fst_classify _ _ _ C) as Mf. apply classify_first in C as [[-> ->]|[Nd (c & m' & R & C & ->)]].
    - cbn [parse_words] in H. destruct pos as [f|]; [|exfalso; revert H; apply with_extra_not].
      destruct (map (fun v => (v, Argument)) ws) as [|[v x] m'] eqn:E; [exfalso; revert H; apply with_extra_not|]. destruct ws as [|v0 ws]; [discriminate|]. injection E as <- <- <-.
      right. exists f, [], [], [45%N; 45%N], (v0 :: ws). split; [reflexivity|]. split; [constructor|]. split; [reflexivity|]. cbn [map fst] in Mf. injection Mf as Mf. cbn [map fst] in H. rewrite Mf in H. exact H.
    - cbn [map fst] in Mf. injection Mf as Mf. destruct c as [|o|].
      + cbn [parse_words] in H. destruct pos as [f|]; [|exfalso; revert H; apply with_extra_not].
        right. exists f, [], [], w, ws. split; [reflexivity|]. split; [constructor|]. split; [reflexivity|]. rewrite Mf in H. exact H.
      + destruct o as [a two x|]; [|cbn [parse_words] in H; exfalso; revert H; apply with_extra_not].
        apply read_known in R as (e & L & Cases). cbn [parse_words] in H.
        destruct Cases as [[-> D]|[(d & v & -> & -> & D)|(c & d & r & -> & -> & -> & I & Lc)]]; cbn [consume] in H.
        * destruct (e_takes e) as [|ch| |] eqn:T.
          -- rewrite (arity_flag a e L (or_introl T)) in H. cbn [app take_actions] in H. rewrite (take_flag a e ns L T) in H. cbn [then_take] in H.
             apply (accepted_more l pos [w] [flag e] ws); [constructor; assumption|]. apply (IH ws m'); [lia|exact C|exact H].
          -- rewrite (arity_word a e ch L T) in H. destruct m' as [|[v [| |]] m']; try discriminate H. apply classify_value in C as (ws' & -> & V & C).
             apply then_take_parsed in H as (ns1 & H1 & H2). cbn [app take_actions] in H1. destruct (take a [v] ns) as [|ns2] eqn:Q; [discriminate|]. injection H1 as ->.
             assert (A : allowed ch v).
             { destruct L as (Ds & _ & K). rewrite T in K. cbn in K. unfold take_action in Q. rewrite K in Q. apply allowed_iff. destruct (option_map (map txt) ch) as [cs|]; [|exact I].
               destruct (existsb (text_eqb v) cs); [reflexivity|discriminate]. }
             rewrite (take_word a e ch v ns L T A) in Q. injection Q as <-.
             apply (accepted_more l pos [w; v] [(e_name e, TextV v)] ws'); [apply (p_word _ _ l e ch w v); assumption|]. apply (IH ws' m'); [cbn in Hn; lia|exact C|exact H2].
          -- rewrite (arity_ints a e L T) in H. destruct m' as [|[v [| |]] [|[u [| |]] m']]; try discriminate H. apply classify_value in C as (ws' & -> & V & C). apply classify_value in C as (ws2 & -> & U & C).
             apply then_take_parsed in H as (ns1 & H1 & H2). cbn [app take_actions] in H1. destruct (take a [v; u] ns) as [|ns2] eqn:Q; [discriminate|]. injection H1 as ->.
             assert (A : exists x y, int_of v = Some x /\ int_of u = Some y).
             { destruct L as (Ds & _ & K). rewrite T in K. cbn in K. unfold take_action in Q. rewrite K in Q. destruct (int_of v) as [x|]; [|discriminate]. destruct (int_of u) as [y|]; [|discriminate]. eauto. }
             destruct A as (x & y & X & Y). rewrite (take_ints a e v u x y ns L T X Y) in Q. injection Q as <-.
             apply (accepted_more l pos [w; v; u] [(e_name e, IntsV [x; y])] ws2); [apply (p_ints _ _ l e w v u x y); assumption|]. apply (IH ws2 m'); [cbn in Hn; lia|exact C|exact H2].
          -- rewrite (arity_flag a e L (or_intror T)) in H. cbn [app take_actions] in H. rewrite (take_end a e [] ns L T) in H. discriminate.
        * destruct (e_takes e) as [|ch| |] eqn:T.
          -- destruct v; cbn [unfold_option] in H; rewrite (arity_flag a e L (or_introl T)) in H; [discriminate|]. destruct two; [discriminate|]. cbn [orb] in H. discriminate.
          -- assert (U : unfold_option (actions l) a two true v = Complete [(a, [v])]) by (destruct v; cbn [unfold_option]; rewrite (arity_word a e ch L T); reflexivity).
             rewrite U in H. apply then_take_parsed in H as (ns1 & H1 & H2). cbn [app take_actions] in H1. destruct (take a [v] ns) as [|ns2] eqn:Q; [discriminate|]. injection H1 as ->.
             assert (A : allowed ch v).
             { destruct L as (Ds & _ & K). rewrite T in K. cbn in K. unfold take_action in Q. rewrite K in Q. apply allowed_iff. destruct (option_map (map txt) ch) as [cs|]; [|exact I].
               destruct (existsb (text_eqb v) cs); [reflexivity|discriminate]. }
             rewrite (take_word a e ch v ns L T A) in Q. injection Q as <-.
             apply (accepted_more l pos [d ++ 61%N :: v] [(e_name e, TextV v)] ws); [apply (p_joined _ _ l e ch d v); assumption|]. apply (IH ws m'); [lia|exact C|exact H2].
          -- destruct v; cbn [unfold_option] in H; rewrite (arity_ints a e L T) in H; discriminate.
          -- destruct v; cbn [unfold_option] in H; rewrite (arity_flag a e L (or_intror T)) in H; [discriminate|]. destruct two; [discriminate|]. cbn [orb] in H. discriminate.
        * destruct (letter_ok l e c I Lc) as (_ & _ & T). pose proof (unfold_letters_inv l (d :: r) a e L T) as U.
          destruct (unfold_option (actions l) a false false (d :: r)) as [q|q a2|q y|]; [destruct U| |exfalso; revert H; apply with_extra_not|discriminate].
          destruct U as [Ar (es & F & K)]. rewrite Ar in H. apply then_take_parsed in H as (ns1 & H1 & H2). destruct (K _ _ H1) as [Fn ->].
          assert (P : piece int_of unicode_digit l [45%N :: c :: d :: r] (map flag (e :: es))).
          { apply p_letters; [discriminate|]. inversion Fn as [|e0 es0 T0 Fn']; subst. constructor; [repeat split; assumption|]. clear - F Fn'. induction F as [|e1 c1 es cs [I1 L1] F IHF]; constructor.
            - inversion Fn'; subst. repeat split; assumption.
            - apply IHF. inversion Fn'; assumption. }
          apply (accepted_more l pos _ _ ws ns ns' P). apply (IH ws m'); [lia|exact C|exact H2].
      + exfalso. clear - R. unfold parse_optional in R. destruct w as [|c w]; [discriminate|]. destruct (negb _); [discriminate|]. destruct (action_of _ _); [discriminate|].
        destruct w; [discriminate|]. destruct (partition_eq _) as [h [t|]]; [destruct (action_of _ h); [discriminate|]|];
          (destruct (get_option_tuples _ _) as [|o [|]]; [destruct (negative_number _ _); [discriminate|]; destruct (existsb _ _); discriminate|discriminate|discriminate]).
  Qed.
End Pieces.
