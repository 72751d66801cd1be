(** * The command line parser: exit codes, and the hypothesis of C72 *)
From Verif Require Import PyBase Json_Model Json_Proofs Settings_Model Cli_Model Main_Model Main_Spec Argparse_Model Argparse_Spec Argparse_Proofs Argparse_Proofs2
  Argparse_Proofs3 Argparse_Proofs4 Argparse_Proofs5.
Open Scope list_scope.

Section Codes.
  Variable int_of : text -> option Z.
  Variable unicode_digit : N -> bool.
  Notation parse_line := (parse_args int_of unicode_digit).
  Notation pieces := (pieces int_of unicode_digit).
  Notation means := (means int_of unicode_digit).
  Notation sub_action := (subcommand_action int_of unicode_digit).
  Notation words := (parse_words int_of).
  Notation cls := (classify unicode_digit).

  (** ** Exit codes *)
  Lemma take_code a vs ns c : take_action int_of a vs ns = Exits c -> c = 0%Z \/ c = 2%Z.
  Proof.
    unfold take_action. destruct (act_kind a) as [| | |ch|]; intro H; try discriminate; try (injection H as <-; auto; fail).
    - destruct vs as [|v [|]]; [injection H as <-; auto| |injection H as <-; auto]. destruct ch as [cs|]; [|discriminate]. destruct (existsb _ cs); [discriminate|injection H as <-; auto].
    - destruct vs as [|v [|u [|]]]; try (injection H as <-; auto; fail). destruct (int_of v); [|injection H as <-; auto]. destruct (int_of u); [discriminate|injection H as <-; auto].
  Qed.
  Lemma takes_code l : forall ns c, take_actions int_of l ns = Exits c -> c = 0%Z \/ c = 2%Z.
  Proof.
    induction l as [|[a vs] l IH]; intros ns c; [discriminate|]. cbn [take_actions]. destruct (take_action int_of a vs ns) as [d|ns'] eqn:T; [|apply IH].
    intro H. injection H as <-. exact (take_code a vs ns d T).
  Qed.
  Lemma then_code p f c : (forall d, p = Exits d -> d = 0%Z \/ d = 2%Z) -> (forall ns d, fst (f ns) = Exits d -> d = 0%Z \/ d = 2%Z) ->
    fst (then_take p f) = Exits c -> c = 0%Z \/ c = 2%Z.
  Proof. intros Hp Hf. destruct p as [d|ns]; cbn [then_take fst]; [|apply Hf]. intro H. injection H as <-. apply Hp. reflexivity. Qed.
  Lemma words_code P pos : (forall f, pos = Some f -> forall ws ns c, fst (f ws ns) = Exits c -> c = 0%Z \/ c = 2%Z) ->
    forall n m ns c, (List.length m <= n)%nat -> fst (words P pos m ns) = Exits c -> c = 0%Z \/ c = 2%Z.
  Proof.
    intro Hf. assert (Z2 : forall c, fst (Exits 2%Z, @nil text) = Exits c -> c = 0%Z \/ c = 2%Z) by (intros c H; injection H as <-; now right).
    induction n as [|n IH]; intros m ns c Hn H; [destruct m; [discriminate|cbn in Hn; lia]|]. destruct m as [|[w k] m]; [discriminate|]. cbn [List.length] in Hn.
    assert (R : forall ns c, fst (words P pos m ns) = Exits c -> c = 0%Z \/ c = 2%Z) by (intros ns' c'; apply IH; lia).
    destruct k as [|o|].
    - cbn [parse_words] in H. destruct pos as [f|] eqn:E; [exact (Hf f eq_refl _ _ _ H)|]. exact (R ns c H).
    - destruct o as [a two x|]; [|cbn [parse_words] in H; exact (R ns c H)]. cbn [parse_words] in H.
      destruct (consume P (Known a two x)) as [l|l b|l e|]; [| | |exact (Z2 c H)].
      + apply (then_code (take_actions int_of l ns) (words P pos m) c); [intro d; apply takes_code|exact R|exact H].
      + destruct (arity (act_kind b)) as [|[|[|]]]; [| | |exact (Z2 c H)].
        * apply (then_code (take_actions int_of (l ++ [(b, [])]) ns) (words P pos m) c); [intro d; apply takes_code|exact R|exact H].
        * destruct m as [|[v [| |]] m]; try exact (Z2 c H).
          apply (then_code (take_actions int_of (l ++ [(b, [v])]) ns) (words P pos m) c); [intro d; apply takes_code| |exact H]. intros ns' d. apply IH. cbn in Hn. lia.
        * destruct m as [|[v [| |]] [|[u [| |]] m]]; try exact (Z2 c H).
          apply (then_code (take_actions int_of (l ++ [(b, [v; u])]) ns) (words P pos m) c); [intro d; apply takes_code| |exact H]. intros ns' d. apply IH. cbn in Hn. lia.
      + cbn [with_extra fst] in H. apply (then_code (take_actions int_of l ns) (words P pos m) c); [intro d; apply takes_code|exact R|exact H].
    - cbn [parse_words] in H. destruct pos as [f|] eqn:E; [|exact (R ns c H)]. destruct m as [|[v [| |]] m]; try exact (R ns c H). exact (Hf f eq_refl _ _ _ H).
  Qed.
  Lemma known_code P pos ws c : (forall f, pos = Some f -> forall ws ns c, fst (f ws ns) = Exits c -> c = 0%Z \/ c = 2%Z) ->
    fst (parse_known_args int_of unicode_digit P pos ws) = Exits c -> c = 0%Z \/ c = 2%Z.
  Proof.
    intros Hf H. unfold parse_known_args in H. destruct (cls P ws) as [m|]; [|injection H as <-; now right].
    exact (words_code P pos Hf (List.length m) m _ c (le_n _) H).
  Qed.
  Lemma exit_codes ws c : parse_line ws = Exits c -> c = 0%Z \/ c = 2%Z.
  Proof.
    unfold parse_args. intro H. destruct (parse_known_args int_of unicode_digit top_actions (Some sub_action) ws) as [[d|ns] ex] eqn:K.
    - injection H as <-. apply (known_code top_actions (Some sub_action) ws); [|rewrite K; reflexivity]. intros f E ws' ns c0. injection E as <-.
      unfold subcommand_action. destruct ws' as [|w ws']; [intro Q; injection Q as <-; now right|]. destruct (find _ subparsers) as [[? acts]|]; [|intro Q; injection Q as <-; now right].
      destruct (parse_known_args int_of unicode_digit acts None ws') as [[d'|ns'] ex'] eqn:K'; cbn [fst]; intro Q; [|discriminate]. injection Q as <-.
      exact (known_code acts None ws' d' ltac:(intros f E; discriminate) (f_equal fst K')).
    - destruct ex; [discriminate|]. injection H as <-. now right.
  Qed.

  (** ** Help and version *)
  Lemma ending_word l e w : denotes l e w -> e_takes e = Ends -> exists c,
    (forall more, cls (actions l) (w :: more) = match cls (actions l) more with Some m => Some ((w, c) :: m) | None => None end) /\
    forall pos m ns, words (actions l) pos ((w, c) :: m) ns = (Exits 0, []).
  Proof.
    intros D T. destruct (read_denoted unicode_digit l e w D) as (a & _ & La & R & _). exists (OptionWord (Known a (two_dashes w) None)). split.
    - intro more. apply classify_word; [apply (denoted_not_dashes l e w D)|exact R].
    - intros pos m ns. cbn [parse_words consume]. rewrite (arity_flag a e La (or_intror T)). cbn [app take_actions]. rewrite (take_end int_of a e [] ns La T). reflexivity.
  Qed.
  Lemma help_top ws a e w rest : pieces Top ws a -> denotes Top e w -> e_takes e = Ends -> Forall (fun v => ~ ambiguous v) rest -> parse_line (ws ++ w :: rest) = Exits 0.
  Proof.
    intros P D T F. destruct (pieces_run int_of unicode_digit Top ws a P) as (cs & C & W). destruct (ending_word Top e w D T) as (c & C2 & W2).
    destruct (classify_all unicode_digit Top rest F) as [m Cm]. cbn [actions] in *. unfold parse_args, parse_known_args. rewrite C, C2, Cm, W, W2. reflexivity.
  Qed.
  Lemma help_sub ws a c rest b e w more : pieces Top ws a -> pieces (Sub c) rest b -> denotes (Sub c) e w -> e_takes e = Ends -> Forall (fun v => ~ ambiguous v) more ->
    parse_line (ws ++ sub_name c :: rest ++ w :: more) = Exits 0.
  Proof.
    intros P Q D T F. destruct (pieces_run int_of unicode_digit Top ws a P) as (cs & C & W). destruct (pieces_run int_of unicode_digit (Sub c) rest b Q) as (cs2 & C2 & W2).
    destruct (ending_word (Sub c) e w D T) as (k & C3 & W3). destruct (classify_all unicode_digit (Sub c) more F) as [m Cm].
    assert (All : cls (actions (Sub c)) (rest ++ w :: more) = Some (cs2 ++ (w, k) :: m)) by (rewrite C2, C3, Cm; reflexivity).
    destruct (classified_words unicode_digit (Sub c) _ (ex_intro _ _ All)) as [m2 Cm2]. cbn [actions] in C, W.
    unfold parse_args, parse_known_args at 1. rewrite C, (sub_word unicode_digit c _ m2 Cm2), W. cbn [parse_words]. rewrite (map_fst_classify _ _ _ _ Cm2).
    unfold subcommand_action. rewrite (sub_found c). unfold parse_known_args. rewrite All, W2, W3. reflexivity.
  Qed.

  (** Only such words end the program with code 0. *)
  Lemma letters_end l r : forall a e, like a e -> e_takes e = Nothing \/ e_takes e = Ends ->
    match unfold_option (actions l) a false false r with
    | Waiting m a' => forall ns, take_actions int_of (m ++ [(a', [])]) ns = Exits 0 -> e_takes e = Ends \/ In 104%N r
    | Extra m _ => forall ns, take_actions int_of m ns = Exits 0 -> e_takes e = Ends \/ In 104%N r
    | _ => True
    end.
  Proof.
    induction r as [|c r IH]; intros a e La T.
    - cbn [unfold_option]. rewrite (arity_flag a e La T). exact I.
    - destruct (N.eqb_spec c hyphen) as [Hc|Hc].
      { cbn [unfold_option]. rewrite (arity_flag a e La T), Hc. exact I. }
      destruct (action_of (actions l) [45%N; c]) as [x|] eqn:A.
      2:{ cbn [unfold_option]. rewrite (arity_flag a e La T). rewrite (proj2 (N.eqb_neq c hyphen) Hc). cbn [orb]. change [hyphen; c] with [45%N; c]. rewrite A.
          intros ns. cbn [take_actions]. destruct T as [T|T]; [rewrite (take_flag int_of a e ns La T); discriminate|]. intros _. left. exact T. }
      destruct (letter_cases l x c A) as (e' & I & _ & L). clear x A. destruct (letter_ok l e' c I L) as (_ & _ & T').
      assert (E104 : e_takes e' = Ends -> c = 104%N).
      { clear - I L. intro T. destruct l as [|[| |]]; cbn in I; repeat (destruct I as [<-|I]; [first [discriminate T|discriminate L|injection L as <-; reflexivity]|]); destruct I. }
      destruct (unfold_step l a e c e' r La T I L) as (a' & La' & ->). destruct r as [|d r].
      + cbn [before]. intros ns. cbn [app take_actions]. destruct T as [T|T]; [rewrite (take_flag int_of a e ns La T)|intros _; left; exact T].
        destruct T' as [T'|T']; [rewrite (take_flag int_of a' e' _ La' T'); discriminate|]. intros _. right. left. exact (E104 T').
      + destruct (N.eqb d equals).
        { destruct r; cbn [unfold_option]; rewrite (arity_flag a' e' La' T'); exact Logic.I. }
        specialize (IH a' e' La' T'). destruct (unfold_option (actions l) a' false false (d :: r)) as [m|m a2|m x|]; cbn [before]; try exact Logic.I.
        all: intros ns; cbn [app take_actions]; destruct T as [T|T]; [rewrite (take_flag int_of a e ns La T)|intros _; left; exact T].
        all: intro H; destruct (IH _ H) as [T2|I2]; [right; left; exact (E104 T2)|right; right; exact I2].
  Qed.
  Lemma then_zero p f : fst (then_take p f) = Exits 0 -> p = Exits 0 \/ exists ns, p = Parsed ns /\ fst (f ns) = Exits 0.
  Proof. destruct p as [d|ns]; cbn [then_take fst]; [intro H; left; exact H|]. intro H. right. eauto. Qed.
  Lemma take_one_zero l a e vs ns : In e (entries l) -> like a e -> e_takes e <> Ends -> take_actions int_of [(a, vs)] ns <> Exits 0.
  Proof.
    intros _ (D & _ & K) T. cbn [take_actions]. unfold take_action. destruct (e_takes e) as [|ch| |]; cbn in K; [rewrite K; discriminate| | |congruence].
    - rewrite K. destruct vs as [|v [|]]; try discriminate. destruct (option_map (map txt) ch) as [cs|]; [destruct (existsb _ cs); discriminate|discriminate].
    - rewrite K. destruct vs as [|v [|u [|]]]; try discriminate. destruct (int_of v); [|discriminate]. destruct (int_of u); discriminate.
  Qed.
  Lemma words_zero l pos n : forall ws m ns, (List.length ws <= n)%nat -> cls (actions l) ws = Some m -> fst (words (actions l) pos m ns) = Exits 0 ->
    (exists w, In w ws /\ ends l w) \/ (exists f ws1 w rest ns1, pos = Some f /\ ws = ws1 ++ w :: rest /\ fst (f (w :: rest) ns1) = Exits 0).
  Proof.
    induction n as [|n IH]; intros ws m ns Hn C H.
    { destruct ws; [|cbn in Hn; lia]. injection C as <-. discriminate. }
    destruct ws as [|w ws]; [injection C as <-; discriminate|]. cbn [List.length] in Hn.
    pose proof (map_fst_classify _ _ _ _ C) as Mf. apply classify_first in C as [[-> ->]|[Nd (c & m' & R & C & ->)]].
    - cbn [parse_words] in H. cbn [map fst] in Mf. injection Mf as Mf.
      assert (Z : forall k q ns, fst (words (actions l) q (map (fun v => (v, Argument)) k) ns) = Exits 0 -> exists f ws1 w rest ns1, q = Some f /\ k = ws1 ++ w :: rest /\ fst (f (w :: rest) ns1) = Exits 0).
      { clear. intros k q. induction k as [|v k IHk]; intros ns H; [discriminate|]. cbn [map parse_words] in H. destruct q as [f|].
        - exists f, [], v, k, ns. split; [reflexivity|]. split; [reflexivity|]. rewrite map_map in H. cbn [fst] in H. rewrite map_id in H. exact H.
        - destruct (IHk ns H) as (f & ? & ? & ? & ? & E & _). discriminate. }
      destruct pos as [f|].
      + destruct (map (fun v => (v, Argument)) ws) as [|[v x] m'] eqn:E; [discriminate|]. destruct ws as [|v0 ws]; [discriminate|]. injection E as <- <- <-.
        right. exists f, [], [45%N; 45%N], (v0 :: ws), ns. split; [reflexivity|]. split; [reflexivity|]. cbn [map fst] in Mf, H. rewrite Mf in H. exact H.
      + destruct (Z ws None ns H) as (f & ? & ? & ? & ? & E & _). discriminate.
    - cbn [map fst] in Mf. injection Mf as Mf.
      assert (Next : forall pre rest m2 ns2, ws = pre ++ rest -> (List.length rest <= n)%nat -> cls (actions l) rest = Some m2 -> fst (words (actions l) pos m2 ns2) = Exits 0 ->
        (exists w', In w' (w :: ws) /\ ends l w') \/ (exists f ws1 w' rest ns1, pos = Some f /\ w :: ws = ws1 ++ w' :: rest /\ fst (f (w' :: rest) ns1) = Exits 0)).
      { intros pre rest m2 ns2 -> Hr C2 H2. destruct (IH rest m2 ns2 Hr C2 H2) as [(w' & I & E)|(f & ws1 & w' & r & ns1 & E & -> & K)].
        - left. exists w'. split; [right; apply in_or_app; now right|exact E].
        - right. exists f, (w :: pre ++ ws1), w', r, ns1. split; [exact E|]. split; [cbn [app]; now rewrite <- app_assoc|exact K]. }
      destruct c as [|o|].
      + cbn [parse_words] in H. destruct pos as [f|]; [|apply (Next [] ws m' ns); [reflexivity|lia|exact C|exact H]].
        right. exists f, [], w, ws, ns. split; [reflexivity|]. split; [reflexivity|]. rewrite Mf in H. exact H.
      + destruct o as [a two x|]; [|cbn [parse_words] in H; apply (Next [] ws m' ns); [reflexivity|lia|exact C|exact H]].
        apply read_known in R as (e & L & Cases). cbn [parse_words] in H.
        destruct Cases as [[-> D]|[(d & v & -> & -> & D)|(c & d & r & -> & -> & -> & I & Lc)]]; cbn [consume] in H.
        * destruct (e_takes e) as [|ch| |] eqn:T.
          4:{ left. exists w. split; [now left|]. left. exists e. split; assumption. }
          all: assert (Te : e_takes e <> Ends) by (rewrite T; discriminate).
          -- rewrite (arity_flag a e L (or_introl T)) in H. cbn [app] in H. apply then_zero in H as [H|(ns1 & _ & H)]; [destruct (take_one_zero l a e _ _ (proj1 D) L Te H)|].
             apply (Next [] ws m' ns1); [reflexivity|lia|exact C|exact H].
          -- rewrite (arity_word a e ch L T) in H. destruct m' as [|[v [| |]] m']; try discriminate H. apply classify_value in C as (ws' & -> & V & C). cbn [app] in H.
             apply then_zero in H as [H|(ns1 & _ & H)]; [destruct (take_one_zero l a e _ _ (proj1 D) L Te H)|]. apply (Next [v] ws' m' ns1); [reflexivity|cbn in Hn; lia|exact C|exact H].
          -- rewrite (arity_ints a e L T) in H. destruct m' as [|[v [| |]] [|[u [| |]] m']]; try discriminate H. apply classify_value in C as (ws' & -> & V & C).
             apply classify_value in C as (ws2 & -> & U & C). cbn [app] in H.
             apply then_zero in H as [H|(ns1 & _ & H)]; [destruct (take_one_zero l a e _ _ (proj1 D) L Te H)|]. apply (Next [v; u] ws2 m' ns1); [reflexivity|cbn in Hn; lia|exact C|exact H].
        * destruct (e_takes e) as [|ch| |] eqn:T.
          -- destruct v; cbn [unfold_option] in H; rewrite (arity_flag a e L (or_introl T)) in H; [discriminate|]. destruct two; [discriminate|]. cbn [orb] in H. discriminate.
          -- assert (U : unfold_option (actions l) a two true v = Complete [(a, [v])]) by (destruct v; cbn [unfold_option]; rewrite (arity_word a e ch L T); reflexivity).
             rewrite U in H. assert (Te : e_takes e <> Ends) by (rewrite T; discriminate). apply then_zero in H as [H|(ns1 & _ & H)]; [destruct (take_one_zero l a e _ _ (proj1 D) L Te H)|].
             apply (Next [] ws m' ns1); [reflexivity|lia|exact C|exact H].
          -- destruct v; cbn [unfold_option] in H; rewrite (arity_ints a e L T) in H; discriminate.
          -- destruct v; cbn [unfold_option] in H; rewrite (arity_flag a e L (or_intror T)) in H; [discriminate|]. destruct two; [discriminate|]. cbn [orb] in H. discriminate.
        * destruct (letter_ok l e c I Lc) as (Hc & _ & T). pose proof (letters_end l (d :: r) a e L T) as U. pose proof (unfold_letters_inv int_of l (d :: r) a e L T) as V.
          assert (Fin : e_takes e = Ends \/ In 104%N (d :: r) -> ends l (45%N :: c :: d :: r)).
          { intro Q. right. exists (c :: d :: r). split; [reflexivity|]. split; [|intros c' r' E; injection E as <- _; exact Hc]. destruct Q as [Q|Q]; [left|now right].
            clear - I Lc Q. destruct l as [|[| |]]; cbn in I; repeat (destruct I as [<-|I]; [first [discriminate Q|discriminate Lc|injection Lc as <-; reflexivity]|]); destruct I. }
          destruct (unfold_option (actions l) a false false (d :: r)) as [q|q a2|q y|]; [destruct V| | |discriminate].
          -- destruct V as [Ar _]. rewrite Ar in H. apply then_zero in H as [H|(ns1 & _ & H)]; [left; eexists; split; [now left|]; exact (Fin (U _ H))|].
             apply (Next [] ws m' ns1); [reflexivity|lia|exact C|exact H].
          -- cbn [with_extra fst] in H. apply then_zero in H as [H|(ns1 & _ & H)]; [left; eexists; split; [now left|]; exact (Fin (U _ H))|].
             apply (Next [] ws m' ns1); [reflexivity|lia|exact C|exact H].
      + exfalso. clear - R. unfold parse_optional in R. destruct w as [|c w]; [discriminate|]. destruct (negb _); [discriminate|]. destruct (action_of _ _); [discriminate|].
        destruct w; [discriminate|]. destruct (partition_eq _) as [h [t|]]; [destruct (action_of _ h); [discriminate|]|];
          (destruct (get_option_tuples _ _) as [|o [|]]; [destruct (negative_number _ _); [discriminate|]; destruct (existsb _ _); discriminate|discriminate|discriminate]).
  Qed.
  Lemma zero_words ws : parse_line ws = Exits 0 -> exists w, In w ws /\ (ends Top w \/ exists c, In (sub_name c) ws /\ ends (Sub c) w).
  Proof.
    unfold parse_args. intro H. destruct (parse_known_args int_of unicode_digit top_actions (Some sub_action) ws) as [[d|ns] ex] eqn:K; [|destruct ex; discriminate].
    injection H as ->. unfold parse_known_args in K. destruct (cls top_actions ws) as [m|] eqn:C; [|discriminate].
    destruct (words_zero Top (Some sub_action) (List.length ws) ws m (flat_map default_of top_actions) (le_n _) C) as [(w & I & E)|(f & ws1 & w & rest & ns1 & E & -> & Z)].
    - change (actions Top) with top_actions. rewrite K. reflexivity.
    - exists w. split; [exact I|left; exact E].
    - injection E as <-. unfold subcommand_action in Z. destruct (find _ subparsers) as [[nm acts]|] eqn:F; [|discriminate]. apply find_sub in F as (c & -> & E). cbn [snd] in E. subst acts.
      destruct (parse_known_args int_of unicode_digit (actions (Sub c)) None rest) as [[d|sub] ex2] eqn:K2; [|discriminate]. cbn [fst] in Z. injection Z as ->.
      unfold parse_known_args in K2. destruct (cls (actions (Sub c)) rest) as [m2|] eqn:C2; [|discriminate].
      destruct (words_zero (Sub c) None (List.length rest) rest m2 (flat_map default_of (actions (Sub c))) (le_n _) C2) as [(w & I & E)|(f & ? & ? & ? & ? & E & _)]; [rewrite K2; reflexivity| |discriminate].
      exists w. split; [apply in_or_app; right; right; exact I|]. right. exists c. split; [apply in_or_app; right; now left|exact E].
  Qed.

  (** ** Which values there are *)
  Definition fits (t : takes) (v : value) : Prop :=
    match t with
    | Nothing => v = BoolV true
    | AWord ch => exists w, v = TextV w /\ allowed ch w
    | TwoIntegers => exists x y, v = IntsV [x; y]
    | Ends => False
    end.
  Lemma values_of l ws a n v : pieces l ws a -> setting a n = Some v -> exists e, In e (entries l) /\ e_name e = n /\ fits (e_takes e) v.
  Proof.
    intro P. revert v. induction P as [|ws a rest b P _ IH]; intros v H; [discriminate|]. rewrite setting_app in H. destruct (setting b n) as [w|]; [apply IH; exact H|]. clear IH.
    destruct P as [e w D T|es cs Hes F|e ch w v0 D T A V|e ch w v0 D T A|e w v0 u x y D T V U X Y].
    2:{ clear Hes. induction F as [|e c es cs (I & T & L) F IHF]; [discriminate|]. cbn [map] in H. rewrite setting_cons in H.
        destruct (setting (map _ es) n) as [q|]; [apply IHF; exact H|]. destruct (String.eqb_spec (e_name e) n) as [E|]; [|discriminate]. injection H as <-.
        exists e. split; [exact I|]. split; [exact E|]. rewrite T. reflexivity. }
    all: rewrite setting_cons in H; cbn in H; destruct (String.eqb_spec (e_name e) n) as [E|]; [|discriminate]; injection H as <-; exists e; split; [apply D|]; split; [exact E|]; rewrite T; cbn; eauto.
  Qed.
  Lemma means_value ws sub a n v : means ws sub a -> setting a n = Some v ->
    exists e, (In e (entries Top) \/ exists c, sub = Some c /\ In e (entries (Sub c))) /\ e_name e = n /\ fits (e_takes e) v.
  Proof.
    intros [ws' a' P|ws' a' c rest b P Q] H.
    - destruct (values_of Top ws' a' n v P H) as (e & I & E). exists e. split; [left; exact I|exact E].
    - rewrite setting_app in H. destruct (setting b n) as [w|] eqn:S.
      + destruct (values_of (Sub c) rest b n v Q) as (e & I & E); [rewrite S; exact H|]. exists e. split; [right; exists c; split; [reflexivity|exact I]|exact E].
      + destruct (values_of Top ws' a' n v P H) as (e & I & E). exists e. split; [left; exact I|exact E].
  Qed.
  Lemma unset_value sub n v : unset sub n = Some v -> v = BoolV false \/ v = NoneV.
  Proof. unfold unset. destruct (find _ _) as [e|]; [|discriminate]. destruct (e_takes e); cbn; intro H; try discriminate; injection H as <-; auto. Qed.
  Lemma entry_cases n e sub : (In e (entries Top) \/ exists c, sub = Some c /\ In e (entries (Sub c))) -> e_name e = n -> e_takes e <> Ends ->
    (n = "test"%string /\ e_takes e = Nothing) \/ exists c, sub = Some c /\ In n (options c) /\ In e (entries (Sub c)).
  Proof.
    intros [I|(c & -> & I)] <- T.
    - left. cbn in I. destruct I as [<-|[<-|[<-|[]]]]; [destruct (T eq_refl)|destruct (T eq_refl)|]. split; reflexivity.
    - right. exists c. split; [reflexivity|]. split; [|exact I].
      destruct c; cbn in I; repeat (destruct I as [<-|I]; [first [destruct (T eq_refl)|cbn; tauto]|]); destruct I.
  Qed.
  Lemma fits_not_end t v : fits t v -> t <> Ends.
  Proof. destruct t; cbn; intros H E; try discriminate. exact H. Qed.
  Lemma unset_of sub n v : unset sub n = Some v -> n = "test"%string \/ exists c, sub = Some c /\ In n (options c).
  Proof.
    unfold unset. destruct (find _ _) as [e|] eqn:F; [|discriminate]. intro H. apply find_some in F as [I E]. apply String.eqb_eq in E.
    destruct (entry_cases n e sub) as [[K _]|(c & S & K & _)]; [|exact E| |left; exact K|right; exists c; split; assumption].
    - apply in_app_or in I as [I|I]; [left; exact I|]. destruct sub as [c|]; [|destruct I]. right. exists c. split; [reflexivity|exact I].
    - intro T. rewrite T in H. discriminate.
  Qed.
  Lemma namespace_of ws sub a ns : means ws sub a -> (forall n, dget String.eqb n ns = attribute sub a n) -> of_subcommand sub ns.
  Proof.
    intros M A n v H. rewrite A in H. unfold attribute in H. destruct (setting a n) as [w|] eqn:S; [|exact (unset_of sub n v H)].
    destruct (means_value ws sub a n w M S) as (e & I & E & F). destruct (entry_cases n e sub I E (fits_not_end _ _ F)) as [[K _]|(c & K & J & _)]; [left; exact K|right; exists c; split; assumption].
  Qed.
  Lemma choice_of ws sub a n v ch : means ws sub a -> attribute sub a n = Some v -> n <> "test"%string ->
    (forall c e, In e (entries (Sub c)) -> e_name e = n -> e_takes e <> Ends -> e_takes e = AWord (Some ch)) -> unset sub n = None \/ unset sub n = Some NoneV ->
    choice ch (Some v).
  Proof.
    intros M A Nt Un U. unfold attribute in A. destruct (setting a n) as [w|] eqn:S.
    - injection A as ->. destruct (means_value ws sub a n v M S) as (e & I & E & F). destruct (entry_cases n e sub I E (fits_not_end _ _ F)) as [[K _]|(c & -> & J & Ic)]; [contradiction|].
      rewrite (Un c e Ic E (fits_not_end _ _ F)) in F. destruct F as (t & -> & K). exact K.
    - destruct U as [U|U]; rewrite U in A; [discriminate|]. injection A as <-. exact I.
  Qed.
  Lemma through ws sub a ns : means ws sub a -> (forall n, dget String.eqb n ns = attribute sub a n) -> let_through ns.
  Proof.
    intros M A. unfold let_through. rewrite !A.
    assert (G : forall n ch, n <> "test"%string -> (forall c e, In e (entries (Sub c)) -> e_name e = n -> e_takes e <> Ends -> e_takes e = AWord (Some ch)) ->
      unset sub n = None \/ unset sub n = Some NoneV -> choice ch (attribute sub a n)).
    { intros n ch Nt Un U. destruct (attribute sub a n) as [v|] eqn:E; [|exact I]. exact (choice_of ws sub a n v ch M E Nt Un U). }
    assert (Un : forall n ch, In (n, ch) [("container", ["rounding"]); ("algorithm", ["newton_grid"; "simple_argument"; "simple_argument_newton"; "associated_polynomial"]);
      ("estimator", ["summation"; "quadrature"]); ("log_level", ["debug"; "info"; "warning"; "error"; "critical"]); ("verbose", ["true"; "True"; "false"; "False"])]%string ->
      choice ch (attribute sub a n)).
    { intros n ch I. assert (Nt : n <> "test"%string) by (intros ->; cbn in I; repeat (destruct I as [I|I]; [discriminate|]); exact I). apply (G n ch Nt).
      - intros c e Ie E T. destruct c; cbn in Ie; repeat (destruct Ie as [<-|Ie]; [cbn in E; subst n; first [destruct (T eq_refl)|cbn in I; repeat (destruct I as [I|I]; [first [discriminate I|injection I as <-; reflexivity]|]); destruct I]|]); destruct Ie.
      - cbn in I. destruct sub as [[| |]|]; repeat (destruct I as [I|I]; [injection I as <- <-; vm_compute; auto|]); destruct I. }
    split; [apply Un; cbn; tauto|]. split; [apply Un; cbn; tauto|]. split; [apply Un; cbn; tauto|]. split; [apply Un; cbn; tauto|]. split; [apply Un; cbn; tauto|].
    unfold attribute. destruct (setting a "precision") as [w|] eqn:S.
    - destruct (means_value ws sub a _ w M S) as (e & I & E & F). destruct (entry_cases _ e sub I E (fits_not_end _ _ F)) as [[K _]|(c & -> & J & Ic)]; [discriminate|].
      assert (T : e_takes e = TwoIntegers).
      { clear - Ic E F. destruct c; cbn in Ic; repeat (destruct Ic as [<-|Ic]; [first [discriminate E|reflexivity]|]); destruct Ic. }
      rewrite T in F. destruct F as (x & y & ->). reflexivity.
    - destruct sub as [[| |]|]; vm_compute; exact I.
  Qed.
  Lemma parser_ok : argparse_ok parse_line.
  Proof. intros ws ns H. destruct (accepted_means int_of unicode_digit ws ns H) as (sub & a & M & A). split; [exact (through ws sub a ns M A)|]. exists sub. exact (namespace_of ws sub a ns M A). Qed.
End Codes.
